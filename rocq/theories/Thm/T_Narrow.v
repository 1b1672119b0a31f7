(** C33: narrowing integer conversions (to_int8, to_int16, to_int32 of wider vectors). *)
From Verif Require Import Proof.NarrowP2 Spec.Typed.

(** one result register *)
Lemma nar_lanes w w' R s va r : wok w' (rbits s) = true -> wok w (rbits R) = true -> rbits s / w' = Z.of_nat (length va) * (rbits R / w) ->
  narrowed w w' (rbits R) (rbits s) va r -> elems w' (nl w' (rbits s)) r = map (s_truncate w') (lanes w R va).
Proof.
  intros H1 H2 HE [_ HN]. destruct (wok_spec _ _ H1) as (_ & _ & _ & N1). destruct (wok_spec _ _ H2) as (_ & _ & _ & N2).
  apply nth_ext with (d := 0) (d' := s_truncate w' 0).
  - rewrite elems_length, map_length, lanes_length. apply Nat2Z.inj. rewrite Nat2Z.inj_mul, N1, N2, HE. ring.
  - intros i Hi. rewrite elems_length in Hi. rewrite map_nth. rewrite <- (Nat2Z.id i).
    rewrite nth_elems by lia. rewrite nth_lanes by (assumption || lia). rewrite HN by lia. rewrite ?Nat2Z.id. reflexivity.
Qed.
(** blocks of registers *)
Lemma chunks k n : forall l : vec, length l = (n * k)%nat ->
  exists bs, l = concat bs /\ length bs = n /\ Forall (fun b => length b = k) bs.
Proof.
  induction n as [|n IH]; intros l Hl.
  - exists []. destruct l; [|discriminate]. repeat split; constructor.
  - cbn in Hl. destruct (IH (skipn k l)) as (bs & E & L & F); [rewrite skipn_length; lia|].
    exists (firstn k l :: bs). cbn [concat]. rewrite <- E, firstn_skipn. split; [reflexivity|]. split; [cbn; lia|].
    constructor; [rewrite firstn_length; lia|assumption].
Qed.
Lemma acopy_block src blk off k : length blk = k -> (forall j, (j < k)%nat -> (off + j < length src)%nat /\ nth (off + j) src 0 = nth j blk 0) ->
  acopy (repeat 0 k) src (map (fun j => (j, (off + j)%nat)) (seq 0 k)) = Ok blk.
Proof.
  intros HL HS.
  assert (forall n o, (o + n = k)%nat -> acopy (firstn o blk ++ repeat 0 n) src (map (fun j => (j, (off + j)%nat)) (seq o n)) = Ok blk) as G.
  { induction n as [|n IH]; intros o Ho; cbn [seq map acopy repeat].
    - rewrite app_nil_r, firstn_all2 by lia. reflexivity.
    - destruct (HS o ltac:(lia)) as [H1 H2]. rewrite aget_in by assumption. cbn [bind].
      assert (length (firstn o blk) = o) as Hl by (rewrite firstn_length; lia).
      rewrite aset_in by (rewrite app_length; cbn [length]; lia). cbn [bind].
      rewrite <- Hl at 2. rewrite upd_app. rewrite H2.
      rewrite <- (IH (S o)) by lia. f_equal. rewrite (firstn_S_nth blk o) by lia. rewrite <- app_assoc. reflexivity. }
  exact (G k O ltac:(lia)).
Qed.
Lemma nth_concat k (bs : list vec) i j : Forall (fun b => length b = k) bs -> (i < length bs)%nat -> (j < k)%nat ->
  (i * k + j < length (concat bs))%nat /\ nth (i * k + j) (concat bs) 0 = nth j (nth i bs []) 0.
Proof.
  intros HF. revert i. induction HF as [|b bs Hb HF IH]; intros i Hi Hj; [cbn in Hi; lia|].
  destruct i; cbn [concat nth]; rewrite app_length.
  - split; [lia|]. cbn. apply app_nth1. lia.
  - cbn [length] in Hi. destruct (IH i ltac:(lia) Hj) as [I1 I2]. split; [cbn; lia|].
    rewrite app_nth2 by (cbn; lia). rewrite <- I2. f_equal. cbn. lia.
Qed.
Lemma nar_loop_ok (f : vec -> res Z) (P : vec -> Z -> Prop) (Q : vec -> Prop) k : (forall b, length b = k -> Q b -> exists r, f b = Ok r /\ P b r) ->
  forall bs dn pre rest src, Forall (fun b => length b = k) (dn ++ bs) -> Forall Q bs -> src = concat (dn ++ bs) -> length pre = length dn ->
  length rest = length bs ->
  exists rs, nar_loop f k k false src (pre ++ rest) (length dn) (length bs) = Ok (pre ++ rs) /\ Forall2 P bs rs.
Proof.
  intros Hf bs. induction bs as [|b bs IH]; intros dn pre rest src HF HQ -> Hp Hr; cbn [length nar_loop].
  - destruct rest; [|discriminate]. exists []. split; [reflexivity|constructor].
  - destruct rest as [|x rest]; [discriminate|]. inversion HQ as [|? ? HQb HQs]; subst.
    assert (length b = k) as Hb by (rewrite Forall_forall in HF; apply HF, in_or_app; right; left; reflexivity).
    rewrite (acopy_block _ b (length dn * k) k Hb).
    2:{ intros j Hj. destruct (nth_concat k (dn ++ b :: bs) (length dn) j HF) as [N1 N2]; [rewrite app_length; cbn; lia|assumption|].
        split; [exact N1|]. etransitivity; [exact N2|]. f_equal. rewrite app_nth2 by (apply le_n). rewrite Nat.sub_diag. reflexivity. }
    cbn [bind]. destruct (Hf b Hb HQb) as (r & Er & Pr). rewrite Er. cbn [bind].
    rewrite aset_in by (rewrite app_length; cbn [length]; lia). cbn [bind]. rewrite <- Hp. rewrite upd_app.
    destruct (IH (dn ++ [b]) (pre ++ [r]) rest (concat (dn ++ b :: bs))) as (rs & E & F2).
    + rewrite <- app_assoc. exact HF.
    + assumption.
    + rewrite <- app_assoc. reflexivity.
    + rewrite !app_length. cbn. lia.
    + cbn in Hr. lia.
    + exists (r :: rs). split; [|constructor; assumption].
      rewrite <- !app_assoc in E. cbn [app] in E. rewrite app_length in E. cbn [length] in E. rewrite Nat.add_1_r in E.
      rewrite <- Hp in E. exact E.
Qed.
Ltac npcases HP := unfold npair in HP; destruct HP as [[-> [-> | [-> | ->]]] | [[-> [-> | ->]] | [-> ->]]].
(** the cases in which the library does not convert correctly: see the refutations below *)
Definition narrow_missing (A : arch) (w w' T' : Z) : bool :=
  (w' =? 8) && ((w =? 32) && (use_avx2 A && negb (use_avx512f A) && (256 <=? T') || f_not_bw A && (512 <=? T'))
                || (w =? 64) && f_not_bw A && (512 <=? T')).
Ltac nfin := repeat match goal with |- _ /\ _ => split | |- _ -> _ => intro end;
  first [ reflexivity | discriminate | exfalso; match goal with H : ?x = ?x -> False |- _ => apply H; reflexivity end ].
Ltac nq q Hb :=
  repeat match goal with |- context [Z.leb (1024 * q) ?d] => destruct (Z.leb_spec (1024 * q) d); [exfalso; lia|] end;
  repeat match goal with |- context [Z.leb ?d (1024 * q)] => destruct (Z.leb_spec d (1024 * q)); [|exfalso; lia] end;
  cbn [rbits];
  repeat match goal with |- context [1024 * q * (?a / ?b)] => let v := eval vm_compute in (1024 * (a / b)) in replace (1024 * q * (a / b)) with (v * q) by (change (a / b) with (v / 1024); change (v / 1024) with (v / 1024); let u := eval vm_compute in (v / 1024) in change (v / 1024) with u; ring) end;
  repeat match goal with |- context [Z.leb (?c * q) ?d] => destruct (Z.leb_spec (c * q) d); [exfalso; lia|] end;
  repeat match goal with |- context [?c * q * ?a / ?b] => let v := eval vm_compute in (c * a / b) in replace (c * q * a / b) with (v * q) by zdiv end;
  repeat match goal with |- context [?c * q / ?d] => let v := eval vm_compute in (c / d) in replace (c * q / d) with (v * q) by zdiv end;
  rewrite ?Z2Nat.id by lia.
Ltac nfinq q := repeat match goal with |- _ /\ _ => split end;
  lazymatch goal with
  | |- _ -> Z.to_nat _ <> 1%nat -> _ => let HM := fresh in intros HM _; revert HM; vm_compute; nfin
  | |- _ = Z.of_nat _ * ?d => lazymatch goal with |- context [q] => let v := eval vm_compute in d in change d with v; rewrite Z2Nat.id by lia; ring | |- _ => vm_compute; nfin end
  | |- context [q] => reflexivity
  | |- _ => vm_compute; nfin
  end.
Lemma narrow_geom A w w' T' : valid_arch A = true -> vsize T' -> npair w w' ->
  let s' := vreg A w' T' in let Tb := rbits s' * w / w' in let s := vreg A w Tb in
  vreg A w (T' * (w / w')) = s /\ Tb = Z.of_nat (vlen A w Tb) * rbits s /\ T' = Z.of_nat (vlen A w' T') * rbits s' /\
  T' * (w / w') = Z.of_nat (vlen A w' T') * Tb /\ T' * (w / w') * w' / w = T' /\
  (narrow_missing A w w' T' = false -> vlen A w' T' <> 1%nat -> copies A w w' = vlen A w Tb /\ (w =? 32) && (w' =? 8) && f_not_bw A = false) /\
  (narrow_missing A w w' T' = false -> w = 32 -> w' = 8 -> s' = R256 -> use_avx512f A = true) /\
  wok w (rbits s) = true /\ wok w' (rbits s') = true /\ rbits s' / w' = Z.of_nat (vlen A w Tb) * (rbits s / w).
Proof.
  intros HV HT HP.
  destruct (vsize_div _ HT) as [E|[E|[E|(Hb & q & E)]]]; subst T'.
  1-3: npcases HP; cbv zeta in *; unfold vlen, copies, narrow_missing, f_not_bw, vreg, fast_int in *; rconf HV; rw3 Eb Ef E2; cbn [rbits] in *;
    vm_compute; nfin.
  npcases HP; cbv zeta in *; unfold vlen, copies, narrow_missing, f_not_bw, vreg, fast_int in *; rconf HV; rw3 Eb Ef E2; cbn [rbits] in *.
  all: cbn [Z.leb Z.compare Pos.compare Pos.compare_cont rbits]; nq q Hb; nfinq q.
Qed.
Lemma nar_any A w w' s va : npair w w' -> (w = 32 -> w' = 8 -> s = R256 -> use_avx512f A = true) ->
  nar_ok A w w' s va (nar A w w' s va).
Proof.
  intros HP HX. npcases HP; unfold nar; cbn [Z.eqb Pos.eqb andb].
  - apply nar_16_8_ok. - apply nar_32_8_ok; auto. - apply nar_64_8_ok. - apply nar_32_16_ok. - apply nar_64_16_ok. - apply nar_64_32_ok.
Qed.

(** to_int8 / to_int16 / to_int32 of a vector with wider elements (result: T' bits): every lane
    of the result is the corresponding lane of the argument modulo 2^w'. *)
Theorem to_int_narrow_partial A w w' T' junk :
  valid_arch A = true -> npair w w' -> vsize T' -> length junk = vlen A w' T' -> narrow_missing A w w' T' = false ->
  converts A w w' (T' * (w / w')) (to_int_narrow A junk w w' (T' * (w / w'))) (s_truncate w').
Proof.
  intros HV HP HT HJ HM va [Wv Lv].
  destruct (narrow_geom A w w' T' HV HT HP) as (G1 & G2 & G3 & G4 & G5 & G6 & G7 & K1 & K2 & K3). cbv zeta in *.
  unfold to_int_narrow. rewrite G5. cbv zeta. set (s' := vreg A w' T') in *. set (Tb := rbits s' * w / w') in *.
  rewrite G1 in *. set (s := vreg A w Tb) in *. set (n := vlen A w' T') in *. set (m := vlen A w Tb) in *.
  pose proof (rb_pos s) as P1. pose proof (rb_pos s') as P2.
  assert (avail_int A w' s' = true) as HA by apply (vreg_avail A w' T' HV).
  assert (length va = (n * m)%nat) as HL.
  { apply Nat2Z.inj. rewrite Nat2Z.inj_mul. apply (Z.mul_reg_r _ _ (rbits s)); [lia|]. rewrite Lv, G4.
    transitivity (Z.of_nat n * (Z.of_nat m * rbits s)); [f_equal; exact G2|ring]. }
  assert (forall b, length b = m -> wfv s b -> exists r, nar A w w' s' b = Ok r /\
            (reg (rbits s') r /\ elems w' (nl w' (rbits s')) r = map (s_truncate w') (lanes w s b))) as HB.
  { intros b Hb Wb. destruct (nar_any A w w' s' b HP (G7 HM) HV HA) as (r & Er & Nr).
    - split; [exact Wb|]. change (Z.of_nat (length b) * rbits s = Tb). rewrite Hb. symmetry. exact G2.
    - exists r. split; [assumption|]. split; [apply Nr|]. change (rbits (vreg A w (rbits s' * w / w'))) with (rbits s) in Nr.
      apply (nar_lanes w w' s s' b r); auto. rewrite Hb. exact K3. }
  destruct (Nat.eq_dec n 1) as [E1|Hn1].
  - rewrite E1 in *. destruct (HB va ltac:(lia) Wv) as (r & Er & Rr & Lr). rewrite Er. cbn [bind]. exists [r]. split; [reflexivity|].
    split; [split|].
    + fold s'. apply Forall_cons; [assumption|constructor].
    + fold s'. symmetry. exact G3.
    + unfold tlanes. rewrite ?G1. fold s'. unfold lanes at 1. cbn [flat_map]. rewrite app_nil_r. exact Lr.
  - destruct (G6 HM Hn1) as [C1 C2].
    match goal with |- exists vr, ?e = Ok vr /\ _ => replace e with (nar_loop (nar A w w' s') m m false va junk 0 n) end.
    2:{ rewrite C1, C2. fold m. clearbody n. destruct n as [|[|n']]; [reflexivity|contradiction|reflexivity]. }
    destruct (chunks m n va HL) as (bs & Ev & Lb & Fb).
    destruct (nar_loop_ok (nar A w w' s') (fun b r => reg (rbits s') r /\ elems w' (nl w' (rbits s')) r = map (s_truncate w') (lanes w s b)) (wfv s) m HB
                bs [] [] junk va) as (rs & Er & F2); auto.
    + clear -Wv Ev. subst va. induction bs as [|b bs IH]; [constructor|]. cbn [concat] in Wv. apply Forall_app in Wv. destruct Wv. constructor; auto.
    + rewrite HJ. symmetry. exact Lb.
    + cbn [app] in Er. change (nar_loop (nar A w w' s') m m false va junk 0 (length bs) = Ok rs) in Er.
      rewrite <- Lb. rewrite Er. exists rs. split; [reflexivity|]. 
      assert (length rs = n) as Ln by (rewrite <- Lb; symmetry; apply (f2_len _ _ _ F2)).
      split; [split|].
      * fold s'. clear -F2. induction F2 as [|? ? ? ? [? _]]; constructor; auto.
      * fold s'. rewrite Ln. symmetry. exact G3.
      * unfold tlanes. fold s'. rewrite ?G1. rewrite Ev. clear -F2. induction F2 as [|b r bs rs [_ Hr] F2 IH]; [reflexivity|].
        cbn [concat]. unfold lanes in *. rewrite flat_map_app, map_app. cbn [flat_map]. rewrite IH. f_equal. exact Hr.
Qed.

(** a vector of n registers counting 0, 1, 2, ... *)
Definition count (w R : Z) (n : nat) : vec := map (fun j => pack w R (fun i => Z.of_nat j * (R / w) + i)) (seq 0 n).
(** to_uint8(uint32<32>) on AVX2 without AVX512F: the lanes come out in the wrong order
    (conv_shrink_to_int8.h:188-195) *)
Theorem to_uint8_u32_avx2_refuted junk : ~ converts arch_avx2 32 8 1024 (to_int_narrow arch_avx2 junk 32 8 1024) (s_truncate 8).
Proof.
  intros H. destruct (H (count 32 256 4)) as (vr & E & _ & HL).
  - split; [|vm_compute; reflexivity]. unfold wfv. repeat (apply Forall_cons || apply Forall_nil); split; vm_compute; first [discriminate|reflexivity].
  - vm_compute in E. injection E as <-. vm_compute in HL. discriminate HL.
Qed.
(** to_uint8(uint32<64>) on AVX512F without AVX512BW: only the first register of the result is
    written (conv_shrink_to_int8.h:210-220) *)
Theorem to_uint8_u32_avx512f_refuted :
  ~ (forall junk, length junk = 2%nat -> converts arch_avx512f 32 8 2048 (to_int_narrow arch_avx512f junk 32 8 2048) (s_truncate 8)).
Proof.
  intros H. destruct (H [0; 0] eq_refl (count 32 512 4)) as (vr & E & _ & HL).
  - split; [|vm_compute; reflexivity]. unfold wfv. repeat (apply Forall_cons || apply Forall_nil); split; vm_compute; first [discriminate|reflexivity].
  - vm_compute in E. injection E as <-. vm_compute in HL. discriminate HL.
Qed.
(** to_uint8(uint64<64>) on AVX512F without AVX512BW: eight registers are copied into an array
    of four (conv_shrink_to_int8.h:354-387) *)
Theorem to_uint8_u64_avx512f_refuted :
  ~ (forall junk, length junk = 2%nat -> converts arch_avx512f 64 8 4096 (to_int_narrow arch_avx512f junk 64 8 4096) (s_truncate 8)).
Proof.
  intros H. destruct (H [0; 0] eq_refl (count 64 512 8)) as (vr & E & _ & HL).
  - split; [|vm_compute; reflexivity]. unfold wfv. repeat (apply Forall_cons || apply Forall_nil); split; vm_compute; first [discriminate|reflexivity].
  - vm_compute in E. first [discriminate E | injection E as <-; vm_compute in HL; discriminate HL].
Qed.

Example narrow_cases :
  (exists vr, to_int_narrow arch_sse2 [0] 32 8 512 (count 32 128 4) = Ok vr /\ tlanes arch_sse2 8 128 vr = map Z.of_nat (seq 0 16)) /\
  (exists vr, to_int_narrow arch_neon64 [0; 0] 64 32 512 (count 64 128 4) = Ok vr /\ tlanes arch_neon64 32 256 vr = map Z.of_nat (seq 0 8)) /\
  to_int_narrow arch_avx2 [0] 16 8 256 [pack 16 256 (fun i => 65280 + i)] = Ok [pack 8 128 (fun i => i)] /\
  valid_arch arch_sse2 = true /\ vsize 128 /\ npair 32 8 /\ narrow_missing arch_sse2 32 8 128 = false.
Proof.
  split; [|split; [|split; [|split; [|split; [|split]]]]].
  - exists [pack 8 128 (fun i => i)]. split; vm_compute; reflexivity.
  - exists [pack 32 128 (fun i => i); pack 32 128 (fun i => 4 + i)]. split; vm_compute; reflexivity.
  - vm_compute. reflexivity.
  - reflexivity.
  - exists O. reflexivity.
  - unfold npair, wpair. lia.
  - reflexivity.
Qed.
