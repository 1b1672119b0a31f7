(** C21: extract and insert; C29: for_each. *)
From Verif Require Import Proof.ExtractP2 Thm.T_Packed.

Lemma seqM_ok f g : forall k lo, (forall i, lo <= i < lo + Z.of_nat k -> f i = Ok (g i)) ->
  seqM f lo k = Ok (map (fun i => g (lo + Z.of_nat i)) (seq 0 k)).
Proof.
  induction k as [|k IH]; intros lo H; [reflexivity|]. cbn [seqM]. rewrite H by lia. cbn [bind].
  rewrite IH by (intros; apply H; lia). cbn [bind seq map]. do 2 f_equal; [f_equal; lia|].
  rewrite <- seq_shift, map_map. apply map_ext. intros. f_equal. lia.
Qed.
Lemma nth_replaced i x l k : (i < length l)%nat -> nth k (replaced i x l) 0 = if Nat.eqb k i then x else nth k l 0.
Proof.
  intros Hi. unfold replaced. destruct (Nat.eqb_spec k i) as [-> | Ne].
  - rewrite app_nth2; rewrite firstn_length_le by lia; [|lia]. rewrite Nat.sub_diag. reflexivity.
  - destruct (Nat.lt_ge_cases k i).
    + rewrite app_nth1 by (rewrite firstn_length_le; lia). rewrite <- (firstn_skipn i l) at 2. rewrite app_nth1 by (rewrite firstn_length_le; lia). reflexivity.
    + rewrite app_nth2; rewrite firstn_length_le by lia; [|lia].
      rewrite <- (firstn_skipn (S i) l) at 2. rewrite app_nth2; rewrite firstn_length_le by lia; [|lia].
      replace (k - i)%nat with (S (k - S i)) by lia. reflexivity.
Qed.
Lemma replaced_len i x l : (i < length l)%nat -> length (replaced i x l) = length l.
Proof. intros Hi. unfold replaced. rewrite app_length. cbn [length]. rewrite firstn_length_le, skipn_length by lia. lia. Qed.

Section T.
  Variables (A : arch) (fp : Z) (e : et) (s : rsz).
  Hypotheses (HV : valid_arch A = true) (HA : avail_et A e s = true) (Hp : fp mod (rbits s / 8) = 0).
  Notation N := (rbits s / eb e).
  Lemma N_pos : 0 < N. Proof. destruct e, s; reflexivity. Qed.
  Lemma len_lanes (v : vec) : Z.of_nat (length (lanes (eb e) s v)) = Z.of_nat (length v) * N.
  Proof.
    rewrite lanes_length. unfold nl. pose proof N_pos. nia.
  Qed.
  Lemma pos_split id (v : vec) : 0 <= id < Z.of_nat (length (lanes (eb e) s v)) ->
    0 <= id mod N < N /\ (Z.to_nat (id / N) < length v)%nat /\ 0 <= id / N.
  Proof.
    rewrite len_lanes. intros Hid. pose proof N_pos. split; [apply Z.mod_pos_bound; lia|].
    assert (0 <= id / N < Z.of_nat (length v)) by (split; [apply Z.div_pos; lia|apply Z.div_lt_upper_bound; lia]). lia.
  Qed.
  Lemma nth_wfv (v : vec) k : wfv s v -> (k < length v)%nat -> nth_error v k = Some (nth k v 0) /\ reg (rbits s) (nth k v 0).
  Proof.
    intros Hv Hk. split; [apply nth_error_nth'; exact Hk|]. apply Forall_nth; auto.
  Qed.
  Lemma extract_ok sg : extract_def A sg e -> extracts sg (eb e) s (extract A fp sg e s).
  Proof.
    intros HD id v Hv Hid. destruct (pos_split id v Hid) as (H1 & H2 & H3). destruct (nth_wfv v _ Hv H2) as [E Hr].
    unfold extract. rewrite E. rewrite i_extract_ok by auto. rewrite nth_lanes by (auto using wokR; lia). reflexivity.
  Qed.
  Lemma insert_ok : inserts (eb e) s (insert A fp e s).
  Proof.
    intros id v x Hv Hid. destruct (pos_split id v Hid) as (H1 & H2 & H3). destruct (nth_wfv v _ Hv H2) as [E Hr].
    pose proof N_pos as HN. unfold insert. rewrite E.
    assert (0 <= wrap (eb e) x < 2 ^ eb e) as Hx by (apply wrap_range; destruct e; cbn; lia).
    rewrite i_insert_ok by auto. cbn [bind]. set (k := Z.to_nat (id / N)) in *.
    set (r := ins (eb e) (rbits s) (id mod N) (wrap (eb e) x) (nth k v 0)). change (firstn k v ++ r :: skipn (S k) v) with (replaced k r v).
    exists (replaced k r v). split; [reflexivity|]. split; [|split].
    - assert (forall j, Forall (reg (rbits s)) (firstn j v) /\ Forall (reg (rbits s)) (skipn j v)) as HF.
      { intros j. apply Forall_app. rewrite firstn_skipn. exact Hv. }
      apply Forall_app. split; [apply HF|constructor; [apply ins_reg, wokR|apply HF]].
    - apply (replaced_len k r v H2).
    - pose proof (len_lanes (replaced k r v)) as L1. pose proof (len_lanes v) as L2. pose proof (replaced_len k r v H2) as L3.
      apply list_nth_ext.
      + rewrite replaced_len by lia. unfold vec in *. lia.
      + intros i Hi. rewrite <- (Nat2Z.id i) at 1. rewrite nth_lanes by (auto using wokR; lia).
        rewrite nth_replaced by exact H2. rewrite (nth_replaced (Z.to_nat id)) by lia.
        replace (nth i (lanes (eb e) s v) 0) with (nth (Z.to_nat (Z.of_nat i)) (lanes (eb e) s v) 0) by (rewrite Nat2Z.id; reflexivity).
        rewrite nth_lanes by (auto using wokR; lia).
        pose proof (Z.mod_pos_bound (Z.of_nat i) N HN) as M.
        pose proof (Z.div_mod (Z.of_nat i) N ltac:(lia)) as D. pose proof (Z.div_mod id N ltac:(lia)) as D'.
        assert (0 <= Z.of_nat i / N) by (apply Z.div_pos; lia).
        destruct (Nat.eqb_spec (Z.to_nat (Z.of_nat i / N)) k) as [E1 | E1].
        * assert (Z.of_nat i / N = id / N) as EQ by lia. unfold r. rewrite lane_ins by (auto using wokR).
          rewrite E1. destruct (Z.eqb_spec (Z.of_nat i mod N) (id mod N)), (Nat.eqb_spec i (Z.to_nat id)); try (rewrite EQ in D; lia); first [apply wrap_wrap | reflexivity].
        * destruct (Nat.eqb_spec i (Z.to_nat id)) as [-> |]; [|reflexivity]. exfalso. apply E1. rewrite Z2Nat.id by lia. reflexivity.
  Qed.
  Lemma foreach_impl_ok sg a : extract_def A sg e -> reg (rbits s) a ->
    foreach_impl A fp sg e s a = Ok (map (value sg (eb e)) (elems (eb e) (nl (eb e) (rbits s)) a)).
  Proof.
    intros HD Ha. pose proof N_pos as HN.
    assert (EE : forall lo k, 0 <= lo -> lo + Z.of_nat k <= N ->
      seqM (fun i => i_extract A fp sg e s i a) lo k = Ok (map (fun i => value sg (eb e) (lane (eb e) (lo + Z.of_nat i) a)) (seq 0 k))).
    { intros lo k H0 Hk. apply (seqM_ok _ (fun i => value sg (eb e) (lane (eb e) i a))). intros i Hi. apply i_extract_ok; auto. lia. }
    destruct (mem_block_ok A fp HV e s a HA Hp) as (m & EM & G).
    assert (EB : forall lo k, 0 <= lo -> lo + Z.of_nat k <= N ->
      seqM (fun i => let* x := mb_get fp (eb e) i m in Ok (if sg then sgn (eb e) x else x)) lo k =
      Ok (map (fun i => value sg (eb e) (lane (eb e) (lo + Z.of_nat i) a)) (seq 0 k))).
    { intros lo k H0 Hk. apply (seqM_ok _ (fun i => value sg (eb e) (lane (eb e) i a))). intros i Hi.
      rewrite (mb_get_ok fp (eb e) (rbits s) a m i) by (first [apply wokR | apply wok8e | apply (al_fp fp e s Hp) | exact G | lia]). reflexivity. }
    assert (EL : map (fun i => value sg (eb e) (lane (eb e) (0 + Z.of_nat i) a)) (seq 0 (Z.to_nat N)) =
                 map (value sg (eb e)) (elems (eb e) (nl (eb e) (rbits s)) a)).
    { unfold elems, nl. rewrite map_map. reflexivity. }
    assert (2 <= N) as H2 by (destruct e, s; vm_compute; discriminate).
    unfold foreach_impl. cbv zeta. rewrite EM. cbn [bind].
    rewrite (EB 2 (Z.to_nat (N - 2))), (EB 0 (Z.to_nat N)), (EE 0 2%nat), (EE 0 (Z.to_nat N)) by lia. cbn [bind].
    match goal with |- context [Ok (?x ++ ?y)] => assert (x ++ y = map (value sg (eb e)) (elems (eb e) (nl (eb e) (rbits s)) a)) as EA end.
    { rewrite <- EL. replace (Z.to_nat N) with (2 + Z.to_nat (N - 2))%nat by lia. rewrite seq_app, map_app. f_equal.
      cbn [Nat.add]. rewrite <- (seq_shift _ 1), <- (seq_shift _ 0), !map_map. apply map_ext. intros. do 2 f_equal. lia. }
    rewrite EA, EL. destruct (_ || _); [destruct (_ || _)|]; reflexivity.
  Qed.
  Lemma for_each_ok sg : extract_def A sg e -> visits sg (eb e) s (for_each A fp sg e s).
  Proof.
    intros HD v. induction v as [|a v IH]; intros Hv; [reflexivity|]. inversion Hv; subst. cbn [for_each].
    rewrite foreach_impl_ok by auto. cbn [bind]. rewrite IH by auto. cbn [bind]. rewrite lanes_cons, map_app. reflexivity.
  Qed.
End T.

(** extract<id>(v): the value of element id (the bits of a floating-point element); the block of
    memory some backends go through sits on the stack at an address aligned like the vector.
    Missing from the full statement: signed 64-bit elements on MSA (see extract_i64_refuted). *)
Theorem extract_partial : forall A fp sg e s, valid_arch A = true -> avail_et A e s = true -> fp mod (rbits s / 8) = 0 ->
  (sg = true -> e = I64 -> use_msa A = false) ->
  extracts sg (eb e) s (extract A fp sg e s).
Proof.
  intros A fp sg e s HV HA Hp H. apply extract_ok; auto. intros H1 H2 H3. rewrite H in H3 by auto. discriminate.
Qed.
(** insert<id>(v, x): element id becomes x converted to the element type, the others stay. *)
Theorem insert_spec : forall A fp e s, valid_arch A = true -> avail_et A e s = true -> fp mod (rbits s / 8) = 0 ->
  inserts (eb e) s (insert A fp e s).
Proof. intros. apply insert_ok; auto. Qed.
(** Reading an element just written gives it back, another element is not affected. *)
Theorem extract_insert : forall A fp sg e s v id j x, valid_arch A = true -> avail_et A e s = true -> fp mod (rbits s / 8) = 0 ->
  (sg = true -> e = I64 -> use_msa A = false) -> wfv s v ->
  0 <= id < Z.of_nat (length (lanes (eb e) s v)) -> 0 <= j < Z.of_nat (length (lanes (eb e) s v)) ->
  (let* v' := insert A fp e s id v x in extract A fp sg e s j v') =
  if j =? id then Ok (value sg (eb e) (x mod 2 ^ eb e)) else extract A fp sg e s j v.
Proof.
  intros A fp sg e s v id j x HV HA Hp H Hv Hid Hj.
  destruct (insert_spec A fp e s HV HA Hp id v x Hv Hid) as (v' & E & W & L & EL). rewrite E. cbn [bind].
  pose proof (extract_partial A fp sg e s HV HA Hp H) as HX.
  rewrite (HX j v') by (auto; rewrite EL, replaced_len by lia; lia). rewrite (HX j v) by auto.
  rewrite EL, nth_replaced by lia. destruct (Z.eqb_spec j id), (Nat.eqb_spec (Z.to_nat j) (Z.to_nat id)); try lia; reflexivity.
Qed.
(** Finding: on MSA int64 elements are put together from two int halves, the low one of which is
    sign-extended, and the high one shifted left although it may be negative (extract.h:317-321). *)
Theorem extract_i64_refuted :
  extract arch_msa 0 true I64 R128 0 [2 ^ 31] = Ok (- 2 ^ 31) /\ value true 64 (lane 64 0 (2 ^ 31)) = 2 ^ 31 /\
  extract arch_msa 0 true I64 R128 0 [2 ^ 63] = UB.
Proof. split; [|split]; vm_compute; reflexivity. Qed.
(** for_each(v, f) calls f for every element exactly once, in order.  Missing: as for extract. *)
Theorem for_each_partial : forall A fp sg e s, valid_arch A = true -> avail_et A e s = true -> fp mod (rbits s / 8) = 0 ->
  (sg = true -> e = I64 -> use_msa A = false) ->
  visits sg (eb e) s (for_each A fp sg e s).
Proof.
  intros A fp sg e s HV HA Hp H. apply for_each_ok; auto. intros H1 H2 H3. rewrite H in H3 by auto. discriminate.
Qed.
Theorem for_each_i64_refuted : for_each arch_msa 0 true I64 R128 [2 ^ 31] = Ok [- 2 ^ 31; 0].
Proof. vm_compute. reflexivity. Qed.

Example elements_case :
  extract arch_sse2 0 true I8 R128 19 [0; 0x80000000] = Ok (-128) /\
  extract arch_altivec 16 false I32 R128 3 [2 ^ 96 * 7] = Ok 7 /\
  insert arch_sse2 0 I64 R128 1 [5] (-1) = Ok [5 + (2 ^ 64 - 1) * 2 ^ 64] /\
  for_each arch_avx2 0 true I32 R128 [0x00000004ffffffff0000000200000001] = Ok [1; 2; -1; 4] /\
  for_each arch_altivec 0 false I64 R128 [2 ^ 64 + 3; 9] = Ok [3; 1; 9; 0].
Proof. split; [|split; [|split; [|split]]]; vm_compute; reflexivity. Qed.
