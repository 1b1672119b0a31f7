(** extract_bits: sums of masked lanes *)
From Verif Require Import Spec.BitTest Model.BitTest Proof.CppLemmas Proof.BitwiseP Proof.MakeConstP Proof.MoveP Proof.UnzipP Proof.ExtractP Proof.ExtractP2 Proof.ShiftP
  Proof.PopcntP Proof.ReduceP Proof.ReduceP6 Proof.ReduceMulP Proof.BitTestP.

Definition bmk (n : nat) (f : Z -> bool) : Z := mk 1 n (fun i => Z.b2z (f i)).
Lemma bmk_bits n f : bits_of (Z.of_nat n) f (bmk n f).
Proof.
  unfold bits_of, bmk. split; [pose proof (mk_range 1 n (fun i => Z.b2z (f i)) ltac:(lia)) as H; rewrite Z.mul_1_l in H; exact H|].
  intros i Hi. rewrite testbit_mk by lia. rewrite Z.mul_1_l, Z.div_1_r, Z.mod_1_r. destruct (Z.ltb_spec i (Z.of_nat n)); [|lia]. destruct (f i); reflexivity.
Qed.
Lemma bits_of_ext n f g r : (forall i, 0 <= i < n -> f i = g i) -> bits_of n f r -> bits_of n g r.
Proof. intros H [H1 H2]. split; auto. intros i Hi. rewrite H2, H by auto. reflexivity. Qed.
Lemma bits_of_eq n f x y : 0 <= n -> bits_of n f x -> bits_of n f y -> x = y.
Proof. intros Hn [H1 H2] [H3 H4]. apply (bits_ext n); auto. intros i Hi. rewrite H2, H4; auto. Qed.
Lemma bits_of_pair n f g x y : 0 <= n -> bits_of n f x -> bits_of n g y -> bits_of (2 * n) (fun i => if i <? n then f i else g (i - n)) (x + y * 2 ^ n).
Proof.
  intros Hn [H1 H2] [H3 H4]. pose proof (pow2_pos n Hn) as P. assert (E2 : 2 ^ (2 * n) = 2 ^ n * 2 ^ n) by (replace (2 * n) with (n + n) by lia; apply Z.pow_add_r; lia).
  split; [rewrite E2; nia|]. intros i Hi. destruct (Z.ltb_spec i n).
  - rewrite <- (Z.mod_pow2_bits_low _ n) by lia. rewrite Z.mod_add by lia. rewrite Z.mod_small by lia. apply H2; lia.
  - replace i with (i - n + n) at 1 by lia. rewrite <- Z.div_pow2_bits by lia. rewrite Z.div_add by lia. rewrite Z.div_small by lia. apply H4; lia.
Qed.
Lemma land_pow2 x k : 0 <= k -> Z.land x (2 ^ k) = Z.b2z (Z.testbit x k) * 2 ^ k.
Proof.
  intros Hk. apply Z.bits_inj'. intros i Hi. rewrite Z.land_spec, Z.pow2_bits_eqb by lia. destruct (Z.eqb_spec k i) as [->|N].
  - rewrite Bool.andb_true_r. destruct (Z.testbit x i); cbn [Z.b2z]; [rewrite Z.mul_1_l, Z.pow2_bits_true by lia; reflexivity|rewrite Z.mul_0_l, Z.bits_0; reflexivity].
  - rewrite Bool.andb_false_r. destruct (Z.testbit x k); cbn [Z.b2z]; [rewrite Z.mul_1_l, Z.pow2_bits_false by lia; reflexivity|rewrite Z.mul_0_l, Z.bits_0; reflexivity].
Qed.
Lemma b2z_range b : 0 <= Z.b2z b <= 1. Proof. destruct b; cbn; lia. Qed.
Lemma bmk8 f : bmk 8 f = Z.b2z (f 0) * 1 + Z.b2z (f 1) * 2 + Z.b2z (f 2) * 4 + Z.b2z (f 3) * 8 + Z.b2z (f 4) * 16 + Z.b2z (f 5) * 32 + Z.b2z (f 6) * 64 + Z.b2z (f 7) * 128.
Proof.
  unfold bmk. cbn [mk]. assert (M : forall b, Z.b2z b mod 2 ^ 1 = Z.b2z b) by (intros []; reflexivity). rewrite !M.
  change (Z.of_nat 0) with 0. change (Z.of_nat 1) with 1. change (Z.of_nat 2) with 2. change (Z.of_nat 3) with 3. change (Z.of_nat 4) with 4. change (Z.of_nat 5) with 5. change (Z.of_nat 6) with 6. change (Z.of_nat 7) with 7.
  change (2 ^ (1 * 0)) with 1. change (2 ^ (1 * 1)) with 2. change (2 ^ (1 * 2)) with 4. change (2 ^ (1 * 3)) with 8. change (2 ^ (1 * 4)) with 16. change (2 ^ (1 * 5)) with 32. change (2 ^ (1 * 6)) with 64. change (2 ^ (1 * 7)) with 128. lia.
Qed.
Lemma bmk4 f : bmk 4 f = Z.b2z (f 0) * 1 + Z.b2z (f 1) * 2 + Z.b2z (f 2) * 4 + Z.b2z (f 3) * 8.
Proof.
  unfold bmk. cbn [mk]. assert (M : forall b, Z.b2z b mod 2 ^ 1 = Z.b2z b) by (intros []; reflexivity). rewrite !M.
  change (Z.of_nat 0) with 0. change (Z.of_nat 1) with 1. change (Z.of_nat 2) with 2. change (Z.of_nat 3) with 3.
  change (2 ^ (1 * 0)) with 1. change (2 ^ (1 * 1)) with 2. change (2 ^ (1 * 2)) with 4. change (2 ^ (1 * 3)) with 8. lia.
Qed.
Lemma bmk2 f : bmk 2 f = Z.b2z (f 0) * 1 + Z.b2z (f 1) * 2.
Proof.
  unfold bmk. cbn [mk]. assert (M : forall b, Z.b2z b mod 2 ^ 1 = Z.b2z b) by (intros []; reflexivity). rewrite !M.
  change (Z.of_nat 0) with 0. change (Z.of_nat 1) with 1. change (2 ^ (1 * 0)) with 1. change (2 ^ (1 * 1)) with 2. lia.
Qed.
Lemma bmk_range n f : 0 <= bmk n f < 2 ^ Z.of_nat n. Proof. apply bmk_bits. Qed.

(** ---------- the scalar loop ---------- *)
Lemma null_loop n top x l : 0 <= top < n -> forall r, 0 <= r < 2 ^ (top + 1) -> Z.of_nat (length l) <= top + 1 ->
  0 <= fold_left (fun r i => wrap n (Z.lor (Z.shiftr r 1) (Z.shiftl (Z.land (x i) 1) top))) l r < 2 ^ (top + 1) /\
  forall i, 0 <= i <= top -> Z.testbit (fold_left (fun r i => wrap n (Z.lor (Z.shiftr r 1) (Z.shiftl (Z.land (x i) 1) top))) l r) i =
    if i + Z.of_nat (length l) <=? top then Z.testbit r (i + Z.of_nat (length l)) else Z.testbit (x (nth (Z.to_nat (i + Z.of_nat (length l) - top - 1)) l 0)) 0.
Proof.
  intros Ht. assert (ST : forall r a, 0 <= r < 2 ^ (top + 1) ->
    0 <= wrap n (Z.lor (Z.shiftr r 1) (Z.shiftl (Z.land a 1) top)) < 2 ^ (top + 1) /\
    forall i, 0 <= i <= top -> Z.testbit (wrap n (Z.lor (Z.shiftr r 1) (Z.shiftl (Z.land a 1) top))) i = if i =? top then Z.testbit a 0 else Z.testbit r (i + 1)).
  { intros r a Hr.
    assert (HI : forall i, top < i -> Z.testbit r i = false) by (intros i Hi; apply (Z.bits_above_log2); [lia|]; destruct (Z.eq_dec r 0) as [->|]; [cbn; lia|]; apply Z.log2_lt_pow2; [lia|]; eapply Z.lt_le_trans; [apply Hr|apply Z.pow_le_mono_r; lia]).
    assert (B : forall i, 0 <= i -> Z.testbit (Z.lor (Z.shiftr r 1) (Z.shiftl (Z.land a 1) top)) i = if i =? top then Z.testbit a 0 else Z.testbit r (i + 1)).
    { intros i Hi. rewrite Z.lor_spec, Z.shiftr_spec, Z.shiftl_spec by lia. destruct (Z.eqb_spec i top) as [->|N].
      - rewrite HI by lia. replace (top - top) with 0 by lia. rewrite Z.land_spec. rewrite Bool.andb_true_r. reflexivity.
      - assert (Z.testbit (Z.land a 1) (i - top) = false) as ->; [|apply Bool.orb_false_r]. destruct (Z_lt_dec i top); [apply Z.testbit_neg_r; lia|].
        rewrite Z.land_spec. change 1 with (2 ^ 0) at 1. rewrite Z.pow2_bits_false by lia. apply Bool.andb_false_r. }
    assert (W : forall i, 0 <= i -> Z.testbit (wrap n (Z.lor (Z.shiftr r 1) (Z.shiftl (Z.land a 1) top))) i = if top <? i then false else if i =? top then Z.testbit a 0 else Z.testbit r (i + 1)).
    { intros i Hi. rewrite testbit_wrap by lia. destruct (Z.ltb_spec i n), (Z.ltb_spec top i); cbn [andb]; try reflexivity; try lia; rewrite B by lia; auto.
      destruct (Z.eqb_spec i top); [lia|]. apply HI; lia. }
    split.
    - split; [apply wrap_range; lia|]. destruct (Z.eq_dec (wrap n (Z.lor (Z.shiftr r 1) (Z.shiftl (Z.land a 1) top))) 0) as [->|NZ]; [apply pow2_pos; lia|].
      pose proof (wrap_range n (Z.lor (Z.shiftr r 1) (Z.shiftl (Z.land a 1) top)) ltac:(lia)) as WR.
      apply Z.log2_lt_pow2; [lia|]. apply Z.nle_gt. intros HL.
      assert (T : Z.testbit (wrap n (Z.lor (Z.shiftr r 1) (Z.shiftl (Z.land a 1) top))) (Z.log2 (wrap n (Z.lor (Z.shiftr r 1) (Z.shiftl (Z.land a 1) top)))) = true) by (apply Z.bit_log2; lia).
      rewrite W in T by lia. destruct (Z.ltb_spec top (Z.log2 (wrap n (Z.lor (Z.shiftr r 1) (Z.shiftl (Z.land a 1) top))))); [discriminate T|lia].
    - intros i Hi. rewrite W by lia. destruct (Z.ltb_spec top i); [lia|reflexivity]. }
  induction l as [|a l IH]; intros r Hr HL; cbn [fold_left].
  - split; auto. intros i Hi. cbn [length]. rewrite Z.add_0_r. destruct (Z.leb_spec i top); [reflexivity|lia].
  - destruct (ST r (x a) Hr) as [R1 B1]. cbn [length] in HL. rewrite Nat2Z.inj_succ in HL. destruct (IH _ R1 ltac:(lia)) as [R2 B2]. split; auto.
    intros i Hi. rewrite B2 by auto. cbn [length]. rewrite Nat2Z.inj_succ. set (m := Z.of_nat (length l)) in *.
    destruct (Z.leb_spec (i + m) top), (Z.leb_spec (i + Z.succ m) top); try lia.
    + rewrite B1 by lia. destruct (Z.eqb_spec (i + m) top); [lia|]. f_equal. lia.
    + rewrite B1 by lia. destruct (Z.eqb_spec (i + m) top); [|lia]. replace (i + Z.succ m - top - 1) with 0 by lia. reflexivity.
    + replace (Z.to_nat (i + Z.succ m - top - 1)) with (S (Z.to_nat (i + m - top - 1))) by lia. reflexivity.
Qed.
Lemma null_bits_ok n top x : 0 <= top < n -> bits_of (top + 1) (fun i => Z.testbit (x i) 0) (null_bits n top x (top + 1)).
Proof.
  intros Ht. unfold null_bits. assert (HL : Z.of_nat (length (zrange (top + 1))) = top + 1) by (unfold zrange; rewrite map_length, seq_length; lia).
  destruct (null_loop n top x (zrange (top + 1)) Ht 0 ltac:(split; [lia|apply pow2_pos; lia]) ltac:(lia)) as [R B]. split; auto.
  intros i Hi. rewrite B by lia. rewrite HL. destruct (Z.leb_spec (i + (top + 1)) top); [lia|].
  replace (i + (top + 1) - top - 1) with i by lia. f_equal. f_equal. unfold zrange. rewrite (nth_indep _ 0 (Z.of_nat 0)) by (rewrite map_length, seq_length; lia). rewrite (map_nth Z.of_nat), seq_nth by lia. lia.
Qed.
