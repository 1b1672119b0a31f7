(** Conversions between floating-point numbers and 64-bit integers: the numbers *)
From Verif Require Import Proof.FloatsP3 Proof.FloatRoundP Proof.FArithP Proof.FConvP Proof.FConvP2 Proof.FConvP3 Proof.FConv64P.
From Verif Require Export Model.FConvI64.
From Coq Require Import Lia.

Lemma f_int_widen x : f_finite 32 x = true -> f_int 64 (f_widen x) = f_int 32 x.
Proof.
  intros HF. destruct (f_widen_ok x) as [(_ & _ & _ & W) _]. destruct (W HF) as [_ E]. unfold f_int. rewrite E.
  change (2 ^ fulp 64) with (2 ^ fulp 32 * 2 ^ unit_gap). apply Z.quot_mul_cancel_r; discriminate.
Qed.
Lemma val_of_int n : Z.abs n <= 2 ^ 53 -> f_abs_val 64 (f_of_int 64 n) = Z.abs n * 2 ^ fulp 32 * 2 ^ unit_gap.
Proof.
  intros Hn. destruct (of_int64_exact n Hn) as [_ E]. pose proof (V64_nonneg (f_of_int 64 n)) as H0.
  assert (EA : f_abs_val 64 (f_of_int 64 n) = Z.abs (f_val 64 (f_of_int 64 n))) by (unfold f_val; destruct (f_neg 64 (f_of_int 64 n)); lia).
  rewrite EA, E. change (2 ^ fulp 64) with (2 ^ fulp 32 * 2 ^ unit_gap). rewrite Z.abs_mul, (Z.abs_eq (_ * _)) by discriminate. ring.
Qed.
Lemma of_int_class n : Z.abs n <= 2 ^ 53 -> f_nan 64 (f_of_int 64 n) = false /\ f_neg 64 (f_of_int 64 n) = (n <? 0) /\ f_finite 64 (f_of_int 64 n) = true.
Proof.
  intros Hn. destruct (of_int64_exact n Hn) as [HF _]. split; [|split; [apply (of_int_nearest true n)|exact HF]].
  destruct (f_class 64 (f_of_int 64 n)) as [(_ & _ & E)|[(_ & _ & E)|(E & _ & _)]]; auto; rewrite HF in E; discriminate E.
Qed.
Lemma narrowed_int n r : Z.abs n <= 2 ^ 53 -> narrowed (f_of_int 64 n) r -> f_neg 32 r = (n <? 0) /\ nearest_mag 32 (Z.abs n * 2 ^ fulp 32) 1 (f_mag 32 r).
Proof.
  intros Hn (_ & H2 & _ & H4). destruct (of_int_class n Hn) as (C1 & C2 & C3). split; [rewrite (H2 C1); exact C2|].
  specialize (H4 C3). rewrite (val_of_int n Hn) in H4. destruct H4 as [H4 H5]. split; [exact H4|]. intros m Hm. destruct (H5 m Hm) as [H6 H7].
  assert (HU : 0 < 2 ^ unit_gap) by reflexivity. revert H6 H7. set (u := 2 ^ unit_gap) in *. set (N := Z.abs n * 2 ^ fulp 32). set (v := f_abs_val 32 (f_mag 32 r)). set (v' := f_abs_val 32 m). clearbody u N v v'.
  assert (E : forall p, Z.abs (p * u - N * u) = Z.abs (p * 1 - N) * u). { intros p. rewrite <- (Z.abs_eq u) at 3 by lia. rewrite <- Z.abs_mul. f_equal. ring. }
  rewrite !E. intros H6 H7. split; [nia|]. intros Hne Heq. apply H7; auto. rewrite Heq. reflexivity.
Qed.
Lemma chopped_int n r : Z.abs n <= 2 ^ 53 -> chopped (f_of_int 64 n) r ->
  f_neg 32 r = (n <? 0) /\ f_finite 32 r = true /\ f_abs_val 32 r <= Z.abs n * 2 ^ fulp 32 /\
  forall m, 0 <= m < f_inf 32 -> f_abs_val 32 m <= Z.abs n * 2 ^ fulp 32 -> m <= f_mag 32 r.
Proof.
  intros Hn (_ & H2 & _ & H4). destruct (of_int_class n Hn) as (C1 & C2 & C3). split; [rewrite (H2 C1); exact C2|].
  destruct (H4 C3) as (F & H5 & H6). split; [exact F|]. rewrite (val_of_int n Hn) in H5, H6.
  assert (HU : 0 < 2 ^ unit_gap) by reflexivity. set (u := 2 ^ unit_gap) in *. set (N := Z.abs n * 2 ^ fulp 32) in *. clearbody u N.
  split; [apply (Z.mul_le_mono_pos_r _ _ u HU); exact H5|]. intros m Hm Hle. apply H6; auto. apply -> (Z.mul_le_mono_pos_r (f_abs_val 32 m) N u HU). exact Hle.
Qed.
(** an integer of at most 53 bits comes back *)
Lemma int64_back n : Z.abs n <= 2 ^ 53 -> f_int 64 (f_of_int 64 n) = n.
Proof. intros Hn. destruct (of_int64_exact n Hn) as [_ E]. unfold f_int. rewrite E. apply Z.quot_mul. discriminate. Qed.
(** conversions *)
Lemma cvtt64_ran sg w x : 0 <= cvtt64 sg w x < 2 ^ 64.
Proof. unfold cvtt64. destruct (fits64 sg w x); [apply wrap_range; lia|]. destruct sg; split; (reflexivity || discriminate). Qed.
Lemma dsat_ran64 lo hi x : 0 <= dsat lo hi x < 2 ^ 64.
Proof. unfold dsat. destruct (f_nan 64 x); [split; [discriminate|reflexivity]|apply wrap_range; lia]. Qed.
Lemma sat64_ran sg x : 0 <= sat64 sg x < 2 ^ 64.
Proof. destruct sg; apply dsat_ran64. Qed.
Lemma fits64_parts sg w x : fits64 sg w x = true -> f_finite w x = true /\ (if sg then - 2 ^ 63 <= f_int w x <= 2 ^ 63 - 1 else 0 <= f_int w x <= 2 ^ 64 - 1).
Proof. destruct sg; cbn [fits64]; intros H; apply fits_spec in H; auto. Qed.
Lemma fin_nn w x : f_finite w x = true -> f_nan w x = false.
Proof. intros H. destruct (f_class w x) as [(_ & _ & E)|[(_ & _ & E)|(E & _ & _)]]; auto; rewrite H in E; discriminate E. Qed.
Lemma sat64_fits sg x : fits64 sg 64 x = true -> sat64 sg x = wrap 64 (f_int 64 x).
Proof.
  intros H. destruct (fits64_parts sg 64 x H) as [HF HI]. pose proof (fin_nn 64 x HF) as HN. change (2 ^ 63) with 9223372036854775808 in HI. change (2 ^ 64) with 18446744073709551616 in HI.
  destruct sg; cbn [sat64]; unfold dsat_s, dsat_u, dsat; rewrite HN; f_equal; change (2 ^ 63) with 9223372036854775808; change (2 ^ 64) with 18446744073709551616; lia.
Qed.
Lemma cvtt64_fits sg w x : fits64 sg w x = true -> cvtt64 sg w x = wrap 64 (f_int w x).
Proof. intros H. unfold cvtt64. rewrite H. reflexivity. Qed.
Lemma sat64_clamped sg x : clamped64 sg 64 x (sat64 sg x).
Proof.
  unfold clamped64. destruct sg; cbn [sat64 int64_of]; unfold dsat_s, dsat_u, dsat; destruct (f_nan 64 x); try reflexivity.
  - rewrite sgn_wrap. apply sgn_id; [lia|]. change (2 ^ (64 - 1)) with 9223372036854775808. change (2 ^ 63) with 9223372036854775808. lia.
  - apply wrap_small. change (2 ^ 64) with 18446744073709551616. lia.
Qed.
(** float32 by way of float64 *)
Lemma widen_class x : f_nan 64 (f_widen x) = f_nan 32 x /\ f_finite 64 (f_widen x) = f_finite 32 x.
Proof.
  destruct (f_widen_ok x) as [(W1 & W2 & W3 & W4) _].
  destruct (f_class 32 x) as [(E1 & E2 & E3)|[(E1 & E2 & E3)|(E1 & E2 & E3)]]; rewrite E1, E3.
  - specialize (W1 E1). destruct (f_class 64 (f_widen x)) as [(F1 & F2 & F3)|[(F1 & F2 & F3)|(F1 & F2 & F3)]]; rewrite W1 in F1; try discriminate F1. auto.
  - specialize (W3 E2). destruct (f_class 64 (f_widen x)) as [(F1 & F2 & F3)|[(F1 & F2 & F3)|(F1 & F2 & F3)]]; rewrite W3 in F2; try discriminate F2. auto.
  - destruct (W4 E3) as [W _]. rewrite W. split; [apply fin_nn; exact W|reflexivity].
Qed.
Lemma fits64_widen sg x : fits64 sg 64 (f_widen x) = fits64 sg 32 x.
Proof.
  assert (H : forall lo hi, f_fits 64 lo hi (f_widen x) = f_fits 32 lo hi x).
  { intros lo hi. unfold f_fits. destruct (widen_class x) as [_ ->]. destruct (f_finite 32 x) eqn:E; [rewrite (f_int_widen x E); reflexivity|reflexivity]. }
  destruct sg; apply H.
Qed.
Lemma val_signed w x : f_val w x = if f_neg w x then - f_abs_val w x else f_abs_val w x.
Proof. reflexivity. Qed.
Lemma sat64_widen sg x : clamped64 sg 32 x (sat64 sg (f_widen x)).
Proof.
  pose proof (sat64_clamped sg (f_widen x)) as H. unfold clamped64 in *. destruct (widen_class x) as [EN EF]. rewrite EN in H. destruct (f_nan 32 x) eqn:N; [exact H|].
  rewrite H. destruct (f_class 32 x) as [(E1 & _)|[(_ & E2 & _)|(_ & _ & E3)]]; [rewrite N in E1; discriminate E1| |rewrite (f_int_widen x E3); reflexivity].
  destruct (f_widen_ok x) as [(_ & W2 & W3 & _) _]. specialize (W2 N). specialize (W3 E2).
  assert (I32 : f_int 32 x = if f_neg 32 x then - 2 ^ 128 else 2 ^ 128).
  { unfold f_int. rewrite val_signed, V32_mag. unfold f_isinf in E2. apply Z.eqb_eq in E2. rewrite E2. destruct (f_neg 32 x); vm_compute; reflexivity. }
  assert (I64 : f_int 64 (f_widen x) = if f_neg 32 x then - 2 ^ 1024 else 2 ^ 1024).
  { unfold f_int. rewrite val_signed, V64_mag, W2. unfold f_isinf in W3. apply Z.eqb_eq in W3. rewrite W3. destruct (f_neg 32 x); vm_compute; reflexivity. }
  rewrite I32, I64. destruct sg, (f_neg 32 x); vm_compute; reflexivity.
Qed.
