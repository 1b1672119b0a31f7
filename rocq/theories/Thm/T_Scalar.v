(** C15: the no-SIMD backend. *)
From Verif Require Import Proof.CppLemmas Proof.MaskP Spec.Scalar Thm.T_Arith Thm.T_Bitwise Thm.T_Shift Thm.T_ShiftV Thm.T_Mul Thm.T_Cmp Thm.T_MinMax
  Thm.T_Popcnt Thm.T_Abs Thm.T_Blend Thm.T_Reduce Thm.T_ReduceMul Model.Arith Model.Abs Model.BitApi Model.Shift Model.ShiftV Model.Popcnt Model.MinMax Model.Cmp Model.Mul Spec.Reduce Model.Reduce Model.ReduceAdd Model.ReduceMul Model.Blend.

From Verif Require Base.ShufLift.
Definition run1 (A : arch) (w : ew) (o : call1) : vec -> res vec :=
  match o with
  | OpNeg => neg A w R128 | OpAbs => abs A w R128 | OpBitNot => bit_not A w R128 | OpPopcnt => popcnt A w R128
  | OpShiftL c => fun va => shift_l A w R128 va c | OpShiftR sg c => fun va => shift_r A sg w R128 va c
  end.
Definition run2 (A : arch) (w : ew) (o : call2) : vec -> vec -> res vec :=
  match o with
  | OpAdd => add A w R128 | OpSub => sub A w R128
  | OpAddSat true => iadd_sat A w R128 | OpAddSat false => uadd_sat A w R128
  | OpSubSat true => isub_sat A w R128 | OpSubSat false => usub_sat A w R128
  | OpMulLo => mul_lo A w R128 | OpMulHi sg => mul_hi A sg R128
  | OpMin sg => min A sg w R128 | OpMax sg => max A sg w R128
  | OpAvg sg => avg A sg w R128 | OpAvgTrunc sg => avg_trunc A sg w R128
  | OpBitAnd => bit_and A w R128 | OpBitOr => bit_or A w R128 | OpBitXor => bit_xor A w R128 | OpBitAndNot => bit_andnot A w R128
  | OpShiftLV => shift_l_v A R128 w | OpShiftRV sg => shift_r_v A R128 sg w
  | OpCmpEq => cmp_eq A w R128 | OpCmpNeq => cmp_neq A w R128
  | OpCmpLt sg => cmp_lt A sg w R128 | OpCmpLe sg => cmp_le A sg w R128
  | OpCmpGt sg => cmp_gt A sg w R128 | OpCmpGe sg => cmp_ge A sg w R128
  end.

(** ---------- a loop is defined only if every iteration is ---------- *)
Lemma mkM_inv w n f r : mkM w n f = Ok r -> forall i, 0 <= i < Z.of_nat n -> defined (f i).
Proof.
  revert r. induction n as [|k IH]; intros r H i Hi; [lia|]. cbn [mkM] in H.
  destruct (mkM w k f) as [z| |] eqn:E; try discriminate H. cbn [bind] in H.
  destruct (f (Z.of_nat k)) as [z0| |] eqn:F; try discriminate H.
  destruct (Z.eq_dec i (Z.of_nat k)) as [->|]; [exists z0; exact F|]. apply (IH z eq_refl). lia.
Qed.
Lemma nloop_inv t R f : defined (nloop t R f) -> forall i, 0 <= i < Z.of_nat (nl (snd t) R) -> defined (f i).
Proof.
  intros [r H] i Hi. unfold nloop in H. destruct (mkM_inv _ _ _ _ H i Hi) as [x E].
  destruct (f i) as [c| |]; try discriminate E. exists c. reflexivity.
Qed.
Lemma impl1_inv op va : defined (vec_impl1 op va) -> Forall (fun a => defined (op a)) va.
Proof.
  induction va as [|a va IH]; intros [r H]; constructor; cbn [vec_impl1] in H.
  - destruct (op a); try discriminate H. eexists; reflexivity.
  - apply IH. destruct (op a); try discriminate H. cbn [bind] in H.
    destruct (vec_impl1 op va); try discriminate H. eexists; reflexivity.
Qed.
Lemma impl2_inv op va vb : length va = length vb -> defined (vec_impl2 op va vb) -> Forall2 (fun a b => defined (op a b)) va vb.
Proof.
  revert vb. induction va as [|a va IH]; intros [|b vb] HL [r H]; try discriminate HL; constructor; cbn [vec_impl2] in H.
  - destruct (op a b); try discriminate H. eexists; reflexivity.
  - apply IH; [injection HL; auto|]. destruct (op a b); try discriminate H. cbn [bind] in H.
    destruct (vec_impl2 op va vb); try discriminate H. eexists; reflexivity.
Qed.

(** elements *)
Lemma cres_inv t x : defined (cres t x) -> fst t = true -> fits t x = true.
Proof. intros [r H] Ht. unfold cres in H. destruct (fits t x); auto. rewrite Ht in H. discriminate H. Qed.
Lemma top_sgn w : sgn (wb w) (2 ^ (wb w - 1)) = - 2 ^ (wb w - 1).
Proof. destruct w; reflexivity. Qed.
Lemma neg_el_inv w a i : defined (c_neg (el (st w) a i)) -> safe1 w OpNeg (lane (wb w) i a).
Proof.
  intros H. destruct w; try (left; vm_compute; discriminate); right; intros E; unfold el, c_neg in H;
  change (snd (st W32)) with 32 in H; change (snd (st W64)) with 64 in H; cbn [wb] in E; rewrite E in H;
  destruct H as [r H]; vm_compute in H; discriminate H.
Qed.
Lemma abs_el_inv w a i : defined (c_abs (el (st w) a i)) -> safe1 w OpAbs (lane (wb w) i a).
Proof.
  intros H. destruct w; try (left; vm_compute; discriminate); right; intros E; unfold el, c_abs in H;
  change (snd (st W32)) with 32 in H; change (snd (st W64)) with 64 in H; cbn [wb] in E; rewrite E in H;
  destruct H as [r H]; vm_compute in H; discriminate H.
Qed.
Lemma mul_el_inv a b i : defined (c_mul (el (ut W16) a i) (el (ut W16) b i)) -> safe2 W16 OpMulLo (lane 16 i a) (lane 16 i b).
Proof.
  intros H _. unfold el in H. change (snd (ut W16)) with 16 in H.
  pose proof (lane_range 16 i a ltac:(lia)) as Ra. pose proof (lane_range 16 i b ltac:(lia)) as Rb.
  set (x := lane 16 i a) in *. set (y := lane 16 i b) in *. clearbody x y. change (2 ^ 16) with 65536 in *.
  unfold cconv in H. cbn [fst snd ut wb] in H. rewrite !wrap_small in H by assumption.
  assert (E : forall z, 0 <= z < 65536 -> cconv c_int z = z).
  { intros z Hz. apply cconv_id; [reflexivity|]. apply fits_spec. cbn; lia. }
  assert (H' : defined (cres c_int (x * y))).
  { revert H. unfold c_mul, carith. cbn [promote fst snd usual Z.ltb Z.compare Pos.compare Pos.compare_cont].
    change (usual c_int c_int) with c_int. rewrite !E by assumption. exact (fun H => H). }
  apply cres_inv in H'; [|reflexivity]. apply fits_spec in H'. cbn in H'. lia.
Qed.

(** ---------- the lanes of a defined call are safe ---------- *)
Lemma elems_in w R (P : Z -> Prop) a : wok w R = true ->
  (forall i, 0 <= i < Z.of_nat (nl w R) -> P (lane w i a)) -> Forall P (elems w (nl w R) a).
Proof.
  intros HW H. apply Forall_forall. intros x Hx. destruct (In_nth _ _ 0 Hx) as (n & Hn & <-).
  rewrite elems_length in Hn. rewrite nth_elems by lia. apply H. lia.
Qed.
Lemma elems_in2 w R (P : Z -> Z -> Prop) a b : wok w R = true ->
  (forall i, 0 <= i < Z.of_nat (nl w R) -> P (lane w i a) (lane w i b)) -> Forall2 P (elems w (nl w R) a) (elems w (nl w R) b).
Proof.
  intros HW H. unfold elems. assert (G : forall k, In k (seq 0 (nl w R)) -> (k < nl w R)%nat) by (intros k Hk; apply in_seq in Hk; lia).
  induction (seq 0 (nl w R)) as [|k l IH]; cbn [map]; constructor.
  - apply H. specialize (G k (or_introl eq_refl)). lia.
  - apply IH. intros j Hj. apply G. right. exact Hj.
Qed.

Lemma null_flags A : valid_arch A = true -> use_null A = true ->
  use_sse2 A = false /\ use_neon A = false /\ use_altivec A = false /\ use_msa A = false /\ use_vsx207 A = false /\ use_avx2 A = false /\
  use_avx512f A = false /\ use_avx512bw A = false /\ use_avx512vl A = false /\ use_ssse3 A = false /\ use_neon32 A = false.
Proof. intros HV HN. unfold use_neon32. fam HV; repeat split; try reflexivity; try assumption; vimp HV. Qed.

Section Null.
  Variable A : arch.
  Hypotheses (HV : valid_arch A = true) (HN : use_null A = true).
  Lemma av w : avail_int A (wb w) R128 = true. Proof. reflexivity. Qed.
  Lemma scalar_here w : scalar A w R128 = true.
  Proof. unfold scalar. rewrite HN. destruct w; reflexivity. Qed.
  Lemma ord_here w : order_exists A w R128.
  Proof. destruct (null_flags A HV HN) as (E1 & E2 & _). unfold order_exists. rewrite E1, E2. intros _ _. split; discriminate. Qed.
  Lemma mm_here w : minmax_exists A w R128.
  Proof. destruct (null_flags A HV HN) as (E1 & E2 & _). unfold minmax_exists. rewrite E1, E2. intros _ _. split; discriminate. Qed.

  Lemma neg_reg w a : defined (i_neg A w R128 a) -> Forall (safe1 w OpNeg) (elems (wb w) (nl (wb w) 128) a).
  Proof.
    intros H. destruct (null_flags A HV HN) as (E1 & E2 & E3 & E4 & E5 & _).
    assert (E : i_neg A w R128 a = null_neg (st w) 128 a).
    { unfold i_neg. rewrite HN, E1, E2, E4, E5. destruct w; reflexivity. }
    rewrite E in H. apply elems_in; [apply (wok_lib w R128)|]. intros i Hi.
    apply neg_el_inv. exact (nloop_inv (st w) 128 _ H i Hi).
  Qed.
  Lemma abs_reg w a : defined (i_iabs A w R128 a) -> Forall (safe1 w OpAbs) (elems (wb w) (nl (wb w) 128) a).
  Proof.
    intros H. destruct (null_flags A HV HN) as (E1 & E2 & E3 & E4 & E5 & _ & _ & _ & E6 & _).
    assert (E : i_iabs A w R128 a = null_abs (st w) 128 a).
    { unfold i_iabs. rewrite HN, E1, E2, E4, E5, E6. destruct w; reflexivity. }
    rewrite E in H. apply elems_in; [apply (wok_lib w R128)|]. intros i Hi.
    apply abs_el_inv. exact (nloop_inv (st w) 128 _ H i Hi).
  Qed.
  Lemma lanes_of w (P : Z -> Prop) va : Forall (fun a => Forall P (elems (wb w) (nl (wb w) 128) a)) va -> Forall P (lanes (wb w) R128 va).
  Proof. induction 1; [constructor|]. rewrite lanes_cons. apply Forall_app. split; assumption. Qed.
  Lemma lanes_of2 w (P : Z -> Z -> Prop) va vb : Forall2 (fun a b => Forall2 P (elems (wb w) (nl (wb w) 128) a) (elems (wb w) (nl (wb w) 128) b)) va vb ->
    Forall2 P (lanes (wb w) R128 va) (lanes (wb w) R128 vb).
  Proof. induction 1; [constructor|]. rewrite !lanes_cons. apply Forall2_app; assumption. Qed.
  Lemma triv (P : Z -> Prop) (l : list Z) : (forall x, P x) -> Forall P l.
  Proof. intros H. apply Forall_forall. auto. Qed.
  Lemma triv2 (P : Z -> Z -> Prop) (l m : list Z) : length l = length m -> (forall x y, P x y) -> Forall2 P l m.
  Proof. intros HL H. revert m HL. induction l; intros [|y m] HL; try discriminate HL; constructor; auto. Qed.

  Lemma f2imp (P Q : Z -> Z -> Prop) l m : (forall x y, P x y -> Q x y) -> Forall2 P l m -> Forall2 Q l m.
  Proof. intros H. induction 1; constructor; auto. Qed.

  (** a call on one vector is defined exactly if all its lanes are safe *)
  Theorem scalar_unary_defined : forall w o va, wfv R128 va -> pre1 w o ->
    (defined (run1 A w o va) <-> Forall (safe1 w o) (lanes (wb w) R128 va)).
  Proof.
    intros w o va Hva Hp. split.
    - destruct o; cbn [run1 pre1] in *; intros H; try (apply triv; intros; exact I); apply lanes_of;
      apply impl1_inv in H; eapply Forall_impl; [intros a; apply neg_reg|exact H|intros a; apply abs_reg|exact H].
    - intros HS. destruct o; cbn [run1 pre1] in *.
      + destruct (neg_partial A w R128 HV (av w) va Hva) as (vr & E & _); [|exists vr; exact E].
        eapply Forall_impl; [|exact HS]. intros x [Hx|Hx] _ H32; [lia|exact Hx].
      + destruct (abs_partial A w R128 HV (av w) va Hva) as (vr & E & _); [|exists vr; exact E].
        eapply Forall_impl; [|exact HS]. intros x [Hx|Hx] _ H32; [lia|exact Hx].
      + destruct (bit_not_spec A w R128 HV (av w) va Hva) as (vr & E & _). exists vr; exact E.
      + destruct (popcnt_spec A w R128 HV (av w) va Hva) as (vr & E & _). exists vr; exact E.
      + destruct (shift_l_spec A w R128 c HV (av w) Hp va Hva) as (vr & E & _). exists vr; exact E.
      + destruct sg; [destruct (shift_r_signed_spec A w R128 c HV (av w) Hp va Hva) as (vr & E & _)
                     |destruct (shift_r_unsigned_spec A w R128 c HV (av w) Hp va Hva) as (vr & E & _)]; exists vr; exact E.
  Qed.

  Lemma mul_reg a b : defined (i_mul_lo16 A R128 a b) -> Forall2 (safe2 W16 OpMulLo) (elems 16 (nl 16 128) a) (elems 16 (nl 16 128) b).
  Proof.
    intros H. assert (E : i_mul_lo16 A R128 a b = null_mul (ut W16) 128 a b) by (unfold i_mul_lo16; rewrite HN; reflexivity).
    rewrite E in H. apply elems_in2; [reflexivity|]. intros i Hi.
    apply mul_el_inv. exact (nloop_inv (ut W16) 128 _ H i Hi).
  Qed.
  Ltac via H := let vr := fresh "vr" in let E := fresh "E" in destruct H as (vr & E & _); exists vr; exact E.
  Theorem scalar_binary_defined : forall w o va vb, wfv R128 va -> wfv R128 vb -> length va = length vb -> pre2 w o ->
    Forall (counts w o) (lanes (wb w) R128 vb) ->
    (defined (run2 A w o va vb) <-> Forall2 (safe2 w o) (lanes (wb w) R128 va) (lanes (wb w) R128 vb)).
  Proof.
    intros w o va vb Hva Hvb HL Hp Hc.
    assert (HLl : length (lanes (wb w) R128 va) = length (lanes (wb w) R128 vb)) by (rewrite !ShufLift.lanes_length; lia).
    split.
    - intros H. destruct o; try (apply triv2; [exact HLl|intros; exact I]).
      destruct Hp as [-> | ->]; [|apply triv2; [exact HLl|intros x y E; discriminate E]].
      cbn [run2 mul_lo] in H. apply lanes_of2. apply impl2_inv in H; [|exact HL].
      clear - H HN HV. induction H; constructor; auto. apply mul_reg; assumption.
    - intros HS. pose proof (null_flags A HV HN) as (E1 & E2 & E3 & E4 & E5 & E6 & E7 & E8 & E9 & E10 & E11).
      assert (HC2 : forall l : list Z, Forall (fun y => y < wb w) (lanes (wb w) R128 vb) -> length l = length (lanes (wb w) R128 vb) ->
                Forall2 (T_ShiftV.in_range (wb w)) l (lanes (wb w) R128 vb)).
      { intros l HF HX. clear - HF HX. revert l HX. induction HF; intros [|x' l'] HX; try discriminate HX; constructor; auto. }
      destruct o; cbn [run2 pre2 counts] in *.
      + via (add_spec A w R128 HV (av w) va vb Hva Hvb HL).
      + via (sub_spec A w R128 HV (av w) va vb Hva Hvb HL).
      + destruct sg; [via (add_sat_s_spec A w R128 HV (av w) ltac:(destruct w; cbn in Hp; auto; lia) va vb Hva Hvb HL)|via (add_sat_u_spec A w R128 HV (av w) ltac:(destruct w; cbn in Hp; auto; lia) va vb Hva Hvb HL)].
      + destruct sg; [via (sub_sat_s_spec A w R128 HV (av w) ltac:(destruct w; cbn in Hp; auto; lia) va vb Hva Hvb HL)|via (sub_sat_u_spec A w R128 HV (av w) ltac:(destruct w; cbn in Hp; auto; lia) va vb Hva Hvb HL)].
      + destruct Hp as [-> | ->].
        * destruct (mul_lo16_spec_partial A R128 HV (av W16) va vb Hva Hvb HL) as (vr & E & _); [|exists vr; exact E].
          eapply f2imp; [|exact HS]; intros x y H _; exact (H eq_refl).
        * via (mul_lo32_spec A R128 HV (av W32) va vb Hva Hvb HL).
      + subst w. destruct sg; [via (mul_hi_signed_spec A R128 HV (av W16) va vb Hva Hvb HL)|via (mul_hi_unsigned_spec A R128 HV (av W16) va vb Hva Hvb HL)].
      + destruct sg; [via (min_signed_partial A w R128 HV (av w) (mm_here w) va vb Hva Hvb HL)|via (min_unsigned_partial A w R128 HV (av w) (mm_here w) va vb Hva Hvb HL)].
      + destruct sg; [via (max_signed_partial A w R128 HV (av w) (mm_here w) va vb Hva Hvb HL)|via (max_unsigned_partial A w R128 HV (av w) (mm_here w) va vb Hva Hvb HL)].
      + assert (w <> W64) by (intros ->; cbn in Hp; lia).
        destruct sg; [via (avg_signed_spec A w R128 HV (av w) H va vb Hva Hvb HL)|via (avg_unsigned_spec A w R128 HV (av w) H va vb Hva Hvb HL)].
      + assert (w <> W64) by (intros ->; cbn in Hp; lia).
        destruct sg; [via (avg_trunc_signed_spec A w R128 HV (av w) H va vb Hva Hvb HL)|via (avg_trunc_unsigned_spec A w R128 HV (av w) H va vb Hva Hvb HL)].
      + via (bit_and_spec A w R128 HV (av w) va vb Hva Hvb HL).
      + via (bit_or_spec A w R128 HV (av w) va vb Hva Hvb HL).
      + via (bit_xor_spec A w R128 HV (av w) va vb Hva Hvb HL).
      + via (bit_andnot_spec A w R128 HV (av w) va vb Hva Hvb HL).
      + assert (HX : shifts_l A w = true) by (unfold shifts_l; rewrite E1; destruct w; try reflexivity; cbn in Hp; lia).
        via (shift_l_by_vector_spec A w R128 HV (av w) HX va vb Hva Hvb HL (HC2 _ Hc HLl)).
      + assert (HX : shifts_r A sg w = true) by (unfold shifts_r; rewrite E1; destruct w, sg; try reflexivity; cbn in Hp; lia).
        destruct sg; [via (shift_r_by_vector_signed_spec A w R128 HV (av w) HX va vb Hva Hvb HL (HC2 _ Hc HLl))
                     |via (shift_r_by_vector_unsigned_spec A w R128 HV (av w) HX va vb Hva Hvb HL (HC2 _ Hc HLl))].
      + via (cmp_eq_spec A w R128 HV (av w) va vb Hva Hvb HL).
      + assert (HX : w = W64 -> R128 = R128 -> use_sse2 A = true -> use_sse41 A = true \/ xop_com A = true) by (intros _ _ X; rewrite E1 in X; discriminate X).
        via (cmp_neq_partial A w R128 HV (av w) HX va vb Hva Hvb HL).
      + destruct sg; [via (cmp_lt_signed_partial A w R128 HV (av w) (ord_here w) va vb Hva Hvb HL)|via (cmp_lt_unsigned_partial A w R128 HV (av w) (ord_here w) va vb Hva Hvb HL)].
      + destruct sg; [via (cmp_le_signed_partial A w R128 HV (av w) (ord_here w) va vb Hva Hvb HL)|via (cmp_le_unsigned_partial A w R128 HV (av w) (ord_here w) va vb Hva Hvb HL)].
      + destruct sg; [via (cmp_gt_signed_partial A w R128 HV (av w) (ord_here w) va vb Hva Hvb HL)|via (cmp_gt_unsigned_partial A w R128 HV (av w) (ord_here w) va vb Hva Hvb HL)].
      + destruct sg; [via (cmp_ge_signed_partial A w R128 HV (av w) (ord_here w) va vb Hva Hvb HL)|via (cmp_ge_unsigned_partial A w R128 HV (av w) (ord_here w) va vb Hva Hvb HL)].
  Qed.

  (** selection by a mask, and the horizontal operations.  [fp]: address of the stack buffer of
      the functions that go through memory.  The sums of 8- and 16-bit elements are accumulated
      in int: 65536 bytes of vector are enough for every use. *)
  Theorem scalar_blend_defined : forall w va vb vm bs, wfv R128 va -> wfv R128 vb -> masks_k (mk_int A w R128) (wb w) R128 vm bs ->
    length va = length vb -> length va = length vm -> defined (blend_m A w R128 va vb vm).
  Proof.
    intros w va vb vm bs Ha Hb Hm HL1 HL2. via (blend_mask_spec A w R128 HV (av w) va vb vm bs Ha Hb Hm HL1 HL2).
  Qed.
  Theorem scalar_reduce_defined_partial : forall fp sg w va, aligned64 fp -> wfv R128 va -> va <> [] ->
    defined (reduce_or A fp w R128 va) /\ defined (reduce_and A fp w R128 va) /\
    defined (reduce_min A fp sg w R128 va) /\ defined (reduce_max A fp sg w R128 va) /\
    (w = W32 \/ w = W64 -> defined (reduce_add A fp sg w R128 va)) /\
    (w = W8 \/ w = W16 -> Z.of_nat (length va) < 2 ^ 13 -> defined (reduce_add A fp sg w R128 va)) /\
    (w = W32 -> defined (reduce_mul A fp sg w R128 va)) /\
    (w = W16 -> sg = false -> defined (reduce_mul A fp sg w R128 va)) /\
    (w = W16 -> sg = true -> product (map (fun x => Z.max 1 (Z.abs (sgn 16 x))) (lanes 16 R128 va)) < 2 ^ 31 ->
       defined (reduce_mul A fp sg w R128 va)).
  Proof.
    intros fp sg w va Hf Hva Hn. pose proof (null_flags A HV HN) as (E1 & E2 & E3 & E4 & E5 & E6 & E7 & E8 & E9 & E10 & E11).
    assert (HNS : native_shape A (wb w) R128 va) by (right; unfold fast_int; rewrite ?E6, ?E7, ?E8; destruct w; reflexivity).
    assert (HSU : Z.of_nat (length va) < 2 ^ 13 -> sum_impl A w va) by (intros H; split; [intros _; right; exact E8|intros _; exact H]).
    assert (HMI : w = W16 \/ w = W32 -> mul_impl A w va) by (intros [-> | ->]; [right; left|right; right]; auto).
    repeat apply conj.
    - via (reduce_or_spec A fp w R128 HV Hf (av w) va Hva Hn).
    - via (reduce_and_spec A fp w R128 HV Hf (av w) va Hva Hn).
    - assert (HM : w = W64 -> min64_impl A sg (Nat.eqb (length va) 1)) by (intros _ _; split; [exact E4|rewrite E11; discriminate]).
      via (reduce_min_partial A fp sg w R128 va HV Hf (av w) HM Hva Hn).
    - assert (HM : w = W64 -> max64_impl A) by (intros _; exact E4).
      via (reduce_max_partial A fp sg w R128 va HV Hf (av w) HM Hva Hn).
    - intros Hw. via (reduce_add_32_64_spec A fp sg w R128 HV Hf (av w) Hw va Hva Hn).
    - intros Hw Hl. via (reduce_add_8_16_partial A fp sg w R128 va HV Hf (av w) Hw HNS (HSU Hl) Hva Hn).
    - intros Hw. assert (HO : no_overflow sg A w (lanes (wb w) R128 va)) by (intros _ E; rewrite Hw in E; discriminate E).
      via (reduce_mul_partial A fp sg w R128 va HV Hf (av w) (or_intror Hw) HNS (HMI (or_intror Hw)) HO Hva Hn).
    - intros Hw Hs. assert (HO : no_overflow sg A w (lanes (wb w) R128 va)) by (intros E; rewrite Hs in E; discriminate E).
      via (reduce_mul_partial A fp sg w R128 va HV Hf (av w) (or_introl Hw) HNS (HMI (or_introl Hw)) HO Hva Hn).
    - intros Hw Hs HP. assert (HO : no_overflow sg A w (lanes (wb w) R128 va)) by (intros _ _ _; rewrite Hw; exact HP).
      via (reduce_mul_partial A fp sg w R128 va HV Hf (av w) (or_introl Hw) HNS (HMI (or_introl Hw)) HO Hva Hn).
  Qed.
End Null.

(** the claim itself is false: undefined behaviour occurs *)
Theorem scalar_backend_ub_refuted : valid_arch arch_null = true /\ use_null arch_null = true /\
  (exists va, wfv R128 va /\ run1 arch_null W32 OpNeg va = UB) /\
  (exists va, wfv R128 va /\ run1 arch_null W64 OpAbs va = UB) /\
  (exists va, wfv R128 va /\ run2 arch_null W16 OpMulLo va va = UB).
Proof.
  split; [reflexivity|]. split; [reflexivity|].
  assert (W : forall x, 0 <= x < 2 ^ 128 -> wfv R128 [x]) by (intros x Hx; constructor; [exact Hx|constructor]).
  split; [exists [2 ^ 31]|split; [exists [2 ^ 63]|exists [65535]]]; (split; [apply W; vm_compute; split; [discriminate|reflexivity]|vm_compute; reflexivity]).
Qed.
(** concrete calls meeting the hypotheses *)
Example scalar_case : Forall (safe1 W32 OpNeg) (lanes 32 R128 [2 ^ 31 - 1]) /\
  Forall2 (safe2 W16 OpMulLo) (lanes 16 R128 [40000]) (lanes 16 R128 [50000]) /\
  run1 arch_null W32 OpNeg [2 ^ 31 - 1] = Ok [2 ^ 31 + 1] /\
  run2 arch_null W16 OpMulLo [40000] [50000] = Ok [40000 * 50000 mod 65536].
Proof.
  repeat apply conj.
  - assert (E : lanes 32 R128 [2 ^ 31 - 1] = [2147483647; 0; 0; 0]) by (vm_compute; reflexivity). rewrite E.
    repeat apply Forall_cons; try apply Forall_nil; right; vm_compute; discriminate.
  - assert (E : lanes 16 R128 [40000] = [40000; 0; 0; 0; 0; 0; 0; 0]) by (vm_compute; reflexivity). rewrite E.
    assert (E' : lanes 16 R128 [50000] = [50000; 0; 0; 0; 0; 0; 0; 0]) by (vm_compute; reflexivity). rewrite E'.
    repeat apply Forall2_cons; try apply Forall2_nil; intros _; vm_compute; discriminate.
  - vm_compute. reflexivity.
  - vm_compute. reflexivity.
Qed.
