(** Rounding errors of log2_approx, as real numbers *)
From Verif Require Import Proof.FloatsP3 Proof.FloatRoundP Proof.FArithP Proof.FConvP Proof.FConv64P Thm.T_FArith Thm.T_FConv Proof.Log2P.
From Verif Require Export Proof.Log2R.
From Coq Require Import Lia Reals Lra Psatz.
Local Open Scope Z_scope.

(** numbers of at most 24 significant bits that are not too small are values of float32 patterns *)
Lemma rep32 mu s : 0 <= mu <= 2 ^ 24 -> 23 <= s <= 250 -> exists m, 0 <= m < f_inf 32 /\ f_abs_val 32 m = mu * 2 ^ s.
Proof.
  intros Hmu Hs. pose proof (inf_E false) as HE. change (fw false) with 32 in HE. change (fexp false) with 255 in HE. change (fmant 32) with 23 in HE.
  destruct (Z.eq_dec mu 0) as [->|Hn].
  { exists 0. split; [split; [lia|reflexivity]|reflexivity]. }
  assert (Hk : exists k f, 0 <= k <= 24 /\ 0 <= f < 2 ^ 23 /\ (2 ^ 23 + f) * 2 ^ k = mu * 2 ^ 23).
  { set (k := Z.log2 mu). destruct (Z.log2_spec mu ltac:(lia)) as [B1 B2]. fold k in B1, B2.
    assert (0 <= k) by apply Z.log2_nonneg.
    assert (k <= 24). { apply (Z.pow_le_mono_r_iff 2); lia. }
    destruct (Z.eq_dec k 24) as [Ek|Ek].
    { exists k, 0. rewrite Ek in *. split; [lia|]. split; [lia|]. assert (mu = 2 ^ 24) as -> by lia. lia. }
    exists k, ((mu - 2 ^ k) * 2 ^ (23 - k)). split; [lia|].
    assert (E : 2 ^ 23 = 2 ^ k * 2 ^ (23 - k)) by (rewrite <- Z.pow_add_r by lia; f_equal; lia).
    assert (0 < 2 ^ (23 - k)) by (apply Z.pow_pos_nonneg; lia).
    rewrite Z.pow_succ_r in B2 by lia. split; [|rewrite E; ring]. rewrite E. split; [nia|]. apply Z.mul_lt_mono_pos_r; lia. }
  destruct Hk as (k & f & Hk & Hf & E). set (e := s - 22 + k).
  assert (0 < 2 ^ 23) by reflexivity.
  assert (He : (e + 1) * 2 ^ 23 <= f_inf 32) by (rewrite HE; apply Z.mul_le_mono_nonneg_r; [lia|unfold e; lia]).
  exists (e * 2 ^ 23 + f). split; [unfold e in *; split; nia|].
  pose proof (val_def false e f) as HV. change (fw false) with 32 in HV. change (fmant 32) with 23 in HV.
  rewrite HV by (unfold e in *; nia). destruct (Z.eqb_spec e 0); [unfold e in *; lia|].
  replace (e - 1) with (k + (s - 23)) by (unfold e; lia). rewrite Z.pow_add_r by lia.
  replace s with (23 + (s - 23)) at 2 by lia. rewrite Z.pow_add_r by lia.
  transitivity ((2 ^ 23 + f) * 2 ^ k * 2 ^ (s - 23)); [ring|]. rewrite E. ring.
Qed.
(** the float nearest to n / d differs from it by at most the last place *)
Lemma near_err n d r s : 0 <= n -> 0 < d -> 23 <= s <= 250 -> n < 2 ^ 24 * 2 ^ s * d -> nearest_mag 32 n d r ->
  r < f_inf 32 /\ Z.abs (f_abs_val 32 r * d - n) <= 2 ^ s * d.
Proof.
  intros Hn Hd Hs Hb [Hr HN]. set (D := 2 ^ s * d). assert (HP : 0 < 2 ^ s) by (apply Z.pow_pos_nonneg; lia). assert (HD : 0 < D) by (unfold D; nia).
  pose proof (Z.div_mod n D ltac:(lia)) as HE. pose proof (Z.mod_pos_bound n D HD) as HM.
  assert (Hq : 0 <= n / D) by (apply Z.div_pos; lia).
  assert (Hq' : n / D < 2 ^ 24) by (apply Z.div_lt_upper_bound; [exact HD|unfold D; nia]).
  destruct (rep32 (n / D) s ltac:(lia) Hs) as (m & Hm & Em). destruct (HN m ltac:(lia)) as [H1 _]. rewrite Em in H1.
  assert (B : Z.abs (n / D * 2 ^ s * d - n) <= D).
  { replace (n / D * 2 ^ s * d) with (D * (n / D)) by (unfold D; ring). lia. }
  split; [|fold D; lia].
  destruct (Z.eq_dec r (f_inf 32)) as [->|]; [|lia]. exfalso.
  assert (EV : f_abs_val 32 (f_inf 32) = 2 ^ 277) by (vm_compute; reflexivity). rewrite EV in H1.
  assert (2 ^ s <= 2 ^ 250) by (apply Z.pow_le_mono_r; lia).
  assert (2 ^ 277 * d <= n + D) by lia.
  assert (n + D < 2 ^ 25 * 2 ^ s * d) by (unfold D in *; nia).
  assert (2 ^ 25 * 2 ^ s * d <= 2 ^ 25 * 2 ^ 250 * d) by nia.
  assert (2 ^ 25 * 2 ^ 250 < 2 ^ 277) by reflexivity. nia.
Qed.

Definition U149 : R := IZR (2 ^ 149).
Lemma U149_pos : (0 < U149)%R. Proof. apply IZR_lt. reflexivity. Qed.
(** the real number a finite float stands for *)
Definition f_real (x : Z) : R := (IZR (f_val 32 x) / U149)%R.

Lemma val_neg_mag x : f_val 32 x = if f_neg 32 x then - f_abs_val 32 (f_mag 32 x) else f_abs_val 32 (f_mag 32 x).
Proof. unfold f_val. rewrite V32_mag. reflexivity. Qed.
Lemma signed_err r v d s : 0 < d -> 23 <= s <= 250 -> Z.abs v < 2 ^ 24 * 2 ^ s * d -> (v <> 0 -> f_neg 32 r = (v <? 0)) -> nearest_mag 32 (Z.abs v) d (f_mag 32 r) ->
  f_finite 32 r = true /\ Z.abs (f_val 32 r * d - v) <= 2 ^ s * d.
Proof.
  intros Hd Hs Hb Hneg HN. destruct (near_err (Z.abs v) d (f_mag 32 r) s ltac:(lia) Hd Hs Hb HN) as [H1 H2].
  split; [unfold f_finite; apply Z.ltb_lt; exact H1|]. rewrite val_neg_mag. destruct (Z.eq_dec v 0) as [->|Hv]; [destruct (f_neg 32 r); lia|].
  rewrite Hneg by exact Hv. destruct (Z.ltb_spec v 0); lia.
Qed.
(** s = 149 + j - 24 for results below 2^j in magnitude *)
Local Open Scope R_scope.
Definition ulp (j : Z) : R := IZR (2 ^ (125 + j)) / U149.
Lemma to_R r v d j : (0 < d)%Z -> (-100 <= j <= 125)%Z -> (Z.abs (f_val 32 r * d - v) <= 2 ^ (125 + j) * d)%Z ->
  Rabs (f_real r - IZR v / IZR d / U149) <= ulp j.
Proof.
  intros Hd Hj H. unfold f_real, ulp. pose proof U149_pos as HU. assert (HD : 0 < IZR d) by (apply IZR_lt; exact Hd).
  replace (IZR (f_val 32 r) / U149 - IZR v / IZR d / U149) with (IZR (f_val 32 r * d - v) * (/ IZR d * / U149)).
  2:{ rewrite minus_IZR, mult_IZR. field. split; lra. }
  apply IZR_le in H. rewrite abs_IZR, mult_IZR in H. rewrite Rabs_mult, (Rabs_right (/ IZR d * / U149)).
  2:{ apply Rle_ge, Rlt_le, Rmult_lt_0_compat; apply Rinv_0_lt_compat; lra. }
  replace (IZR (2 ^ (125 + j)) / U149) with (IZR (2 ^ (125 + j)) * IZR d * (/ IZR d * / U149)) by (field; split; lra).
  apply Rmult_le_compat_r; [|exact H]. apply Rlt_le, Rmult_lt_0_compat; apply Rinv_0_lt_compat; lra.
Qed.
Lemma of_R v d j : (0 < d)%Z -> (-100 <= j <= 125)%Z -> Rabs (IZR v / IZR d / U149) < IZR (2 ^ (149 + j)) / U149 ->
  (Z.abs v < 2 ^ 24 * 2 ^ (125 + j) * d)%Z.
Proof.
  intros Hd Hj H. pose proof U149_pos as HU. assert (HD : 0 < IZR d) by (apply IZR_lt; exact Hd).
  replace (IZR v / IZR d / U149) with (IZR v * (/ IZR d * / U149)) in H by (field; split; lra).
  rewrite Rabs_mult, (Rabs_right (/ IZR d * / U149)) in H.
  2:{ apply Rle_ge, Rlt_le, Rmult_lt_0_compat; apply Rinv_0_lt_compat; lra. }
  apply lt_IZR. rewrite mult_IZR, abs_IZR, <- Z.pow_add_r by lia. replace (24 + (125 + j))%Z with (149 + j)%Z by lia.
  apply (Rmult_lt_compat_r (IZR d * U149)) in H; [|apply Rmult_lt_0_compat; lra].
  replace (Rabs (IZR v) * (/ IZR d * / U149) * (IZR d * U149)) with (Rabs (IZR v)) in H by (field; split; lra).
  replace (IZR (2 ^ (149 + j)) / U149 * (IZR d * U149)) with (IZR (2 ^ (149 + j)) * IZR d) in H by (field; lra). exact H.
Qed.

Definition bnd (j : Z) : R := IZR (2 ^ (149 + j)) / U149.
Lemma mul_err x y j : (-100 <= j <= 125)%Z -> f_finite 32 x = true -> f_finite 32 y = true -> Rabs (f_real x * f_real y) < bnd j ->
  f_finite 32 (f_mul 32 x y) = true /\ Rabs (f_real (f_mul 32 x y) - f_real x * f_real y) <= ulp j.
Proof.
  intros Hj Hx Hy HB. pose proof U149_pos as HU.
  assert (E : f_real x * f_real y = IZR (f_val 32 x * f_val 32 y) / IZR (2 ^ 149) / U149).
  { unfold f_real. fold U149. rewrite mult_IZR. field. lra. }
  rewrite E in *. destruct (mul_float_nearest false x y Hx Hy) as [Hs Hn]. change (fw false) with 32%Z in *. change (fulp 32) with 149%Z in *.
  assert (EA : (f_abs_val 32 x * f_abs_val 32 y = Z.abs (f_val 32 x * f_val 32 y))%Z).
  { rewrite Z.abs_mul. rewrite !val_neg_mag. pose proof (V32_nonneg (f_mag 32 x)). pose proof (V32_nonneg (f_mag 32 y)). rewrite (V32_mag x), (V32_mag y).
    destruct (f_neg 32 x), (f_neg 32 y); lia. }
  rewrite EA in Hn.
  destruct (signed_err (f_mul 32 x y) (f_val 32 x * f_val 32 y) (2 ^ 149) (125 + j)) as [HF HE]; [reflexivity|lia|apply of_R; auto; reflexivity| |exact Hn|].
  - intros Hv. rewrite Hs. rewrite !val_neg_mag in *. pose proof (Z.mul_nonneg_nonneg _ _ (V32_nonneg (f_mag 32 x)) (V32_nonneg (f_mag 32 y))). symmetry. revert Hv.
    destruct (f_neg 32 x), (f_neg 32 y); cbn [xorb]; rewrite ?Z.mul_opp_opp, ?Z.mul_opp_l, ?Z.mul_opp_r; intros Hv; first [apply Z.ltb_lt; lia | apply Z.ltb_ge; lia].
  - split; [exact HF|]. apply to_R; auto. reflexivity.
Qed.
Lemma add_err x y j : (-100 <= j <= 125)%Z -> f_finite 32 x = true -> f_finite 32 y = true -> Rabs (f_real x + f_real y) < bnd j ->
  f_finite 32 (f_add 32 x y) = true /\ Rabs (f_real (f_add 32 x y) - (f_real x + f_real y)) <= ulp j.
Proof.
  intros Hj Hx Hy HB. pose proof U149_pos as HU.
  assert (E : f_real x + f_real y = IZR (f_val 32 x + f_val 32 y) / IZR 1 / U149).
  { unfold f_real. rewrite plus_IZR. field. lra. }
  rewrite E in *. destruct (Z.eq_dec (f_val 32 x + f_val 32 y) 0) as [E0|E0].
  - assert (H : exists b, f_add 32 x y = f_sign 32 b).
    { unfold f_add, f_unord. destruct (f_class 32 x) as [(_ & _ & F)|[(_ & _ & F)|(-> & -> & _)]]; try (rewrite F in Hx; discriminate Hx).
      destruct (f_class 32 y) as [(_ & _ & F)|[(_ & _ & F)|(-> & -> & _)]]; try (rewrite F in Hy; discriminate Hy). cbn [orb].
      cbv zeta. rewrite (proj2 (Z.eqb_eq _ _) E0). eauto. }
    destruct H as (b & ->). split; [destruct b; reflexivity|]. rewrite E0. unfold f_real.
    assert (f_val 32 (f_sign 32 b) = 0%Z) as -> by (destruct b; reflexivity).
    replace (0 / U149 - 0 / 1 / U149) with 0 by (field; lra). rewrite Rabs_R0. unfold ulp. apply Rlt_le, Rdiv_lt_0_compat; [|exact HU].
    apply IZR_lt, Z.pow_pos_nonneg; lia.
  - destruct (add_float_nearest false x y Hx Hy E0) as [Hs Hn]. change (fw false) with 32%Z in *.
    destruct (signed_err (f_add 32 x y) (f_val 32 x + f_val 32 y) 1 (125 + j)) as [HF HE]; [reflexivity|lia|apply of_R; auto; reflexivity|intros _; exact Hs|exact Hn|].
    split; [exact HF|]. apply to_R; auto. reflexivity.
Qed.
Lemma sub_err x y j : (0 <= y < 2 ^ 32)%Z -> (-100 <= j <= 125)%Z -> f_finite 32 x = true -> f_finite 32 y = true -> Rabs (f_real x - f_real y) < bnd j ->
  f_finite 32 (f_sub 32 x y) = true /\ Rabs (f_real (f_sub 32 x y) - (f_real x - f_real y)) <= ulp j.
Proof.
  intros Ry Hj Hx Hy HB. unfold f_sub. destruct (f_class 32 y) as [(_ & _ & F)|[(_ & _ & F)|(-> & _ & _)]]; try (rewrite F in Hy; discriminate Hy).
  assert (E : f_real (f_opp 32 y) = - f_real y).
  { unfold f_real. rewrite (f_val_opp false y Ry : f_val 32 (f_opp 32 y) = _). change (fw false) with 32%Z. rewrite opp_IZR. unfold Rdiv. ring. }
  replace (f_real x - f_real y) with (f_real x + f_real (f_opp 32 y)) in * by lra.
  apply add_err; auto. unfold f_finite. rewrite (f_mag_opp false y Ry : f_mag 32 (f_opp 32 y) = _). exact Hy.
Qed.
Lemma bnd_E j : (0 <= j)%Z -> bnd j = IZR (2 ^ j).
Proof. intros Hj. unfold bnd, U149. rewrite Z.pow_add_r, mult_IZR by lia. field. apply IZR_neq. discriminate. Qed.
Lemma ulp_E j : (0 <= j <= 24)%Z -> ulp j = / IZR (2 ^ (24 - j)).
Proof.
  intros Hj. unfold ulp, U149. assert (E : (2 ^ 149 = 2 ^ (125 + j) * 2 ^ (24 - j))%Z) by (rewrite <- Z.pow_add_r by lia; f_equal; lia).
  rewrite E, mult_IZR.
  assert (0 < IZR (2 ^ (125 + j))) by (apply IZR_lt, Z.pow_pos_nonneg; lia). assert (0 < IZR (2 ^ (24 - j))) by (apply IZR_lt, Z.pow_pos_nonneg; lia). field. lra.
Qed.
Lemma const_close x n : (Z.abs (f_val 32 x * 10 ^ 8 - n * 2 ^ 149) <=? 13 * 2 ^ 149)%Z = true -> Rabs (f_real x - IZR n / IZR (10 ^ 8)) <= 13 / IZR (10 ^ 8).
Proof.
  intros H. apply Z.leb_le in H. apply IZR_le in H. rewrite abs_IZR, minus_IZR, !mult_IZR in H. pose proof U149_pos as HU. fold U149 in H. unfold f_real.
  assert (0 < IZR (10 ^ 8)) by (apply IZR_lt; reflexivity).
  replace (IZR (f_val 32 x) / U149 - IZR n / IZR (10 ^ 8)) with ((IZR (f_val 32 x) * IZR (10 ^ 8) - IZR n * U149) * (/ U149 * / IZR (10 ^ 8))) by (field; split; lra).
  rewrite Rabs_mult, (Rabs_right (/ U149 * / IZR (10 ^ 8))).
  2:{ apply Rle_ge, Rlt_le, Rmult_lt_0_compat; apply Rinv_0_lt_compat; lra. }
  replace (13 / IZR (10 ^ 8)) with (13 * U149 * (/ U149 * / IZR (10 ^ 8))) by (field; split; lra).
  apply Rmult_le_compat_r; [|exact H]. apply Rlt_le, Rmult_lt_0_compat; apply Rinv_0_lt_compat; lra.
Qed.
