(** Integers as floating-point numbers *)
From Verif Require Import Proof.FloatsP3 Proof.FloatRoundP Proof.FArithP.
From Verif Require Export Spec.FloatConv.
From Coq Require Import Lia.

Section S.
  Variable d : bool.
  Notation w := (fw d).
  Notation M := (fmant w).
  Notation V := (f_abs_val w).
  Notation one := (2 ^ fulp w).
  Lemma one_pos : 0 < one. Proof. destruct d; reflexivity. Qed.
  Lemma fu_M : 1 <= M /\ M <= fulp w /\ fulp w + 67 < fexp d. Proof. destruct d; vm_compute; intuition discriminate. Qed.
  Lemma V_0 : V 0 = 0. Proof. destruct d; reflexivity. Qed.
  (** integers with few enough significant bits are values of finite patterns *)
  Lemma int_rep mu t : 0 <= mu <= 2 ^ (M + 1) -> 0 <= t <= 64 -> exists m, 0 <= m < f_inf w /\ V m = mu * 2 ^ t * one.
  Proof.
    intros Hmu Ht. pose proof fu_M as (H1 & H2 & H3). pose proof (PM d). pose proof one_pos.
    destruct (Z.eq_dec mu 0) as [->|Hn].
    { exists 0. rewrite inf_E. split; [nia|]. pose proof (val_def d 0 0) as E0. change 0 with (0 * 2 ^ M + 0) at 1. rewrite E0 by (rewrite ?inf_E; nia). reflexivity. }
    assert (Hk : exists k f, 0 <= k <= M + 1 /\ 0 <= f < 2 ^ M /\ (2 ^ M + f) * 2 ^ k = mu * 2 ^ M).
    { set (k := Z.log2 mu). destruct (Z.log2_spec mu ltac:(lia)) as [B1 B2]. fold k in B1, B2.
      assert (0 <= k) by apply Z.log2_nonneg.
      assert (k <= M + 1). { apply (Z.pow_le_mono_r_iff 2); lia. }
      destruct (Z.eq_dec k (M + 1)) as [Ek|Ek].
      { exists k, 0. rewrite Ek in *. split; [lia|]. split; [lia|]. assert (mu = 2 ^ (M + 1)) as -> by lia. lia. }
      exists k, ((mu - 2 ^ k) * 2 ^ (M - k)). split; [lia|].
      assert (E : 2 ^ M = 2 ^ k * 2 ^ (M - k)) by (rewrite <- Z.pow_add_r by lia; f_equal; lia).
      assert (0 < 2 ^ (M - k)) by (apply Z.pow_pos_nonneg; lia).
      rewrite Z.pow_succ_r in B2 by lia. split; [|rewrite E; ring]. rewrite E. split; [nia|]. apply Z.mul_lt_mono_pos_r; lia. }
    destruct Hk as (k & f & Hk & Hf & E).
    set (e := fulp w - M + 1 + k + t).
    assert (He : (e + 1) * 2 ^ M <= f_inf w) by (rewrite inf_E; apply Z.mul_le_mono_nonneg_r; [lia|unfold e; lia]).
    exists (e * 2 ^ M + f). split; [unfold e in *; split; nia|].
    rewrite val_def by (unfold e in *; nia). destruct (Z.eqb_spec e 0); [unfold e in *; lia|].
    replace (e - 1) with (k + (t + (fulp w - M))) by (unfold e; lia). rewrite Z.pow_add_r, Z.pow_add_r by lia.
    replace one with (2 ^ M * 2 ^ (fulp w - M)) by (rewrite <- Z.pow_add_r by lia; f_equal; lia).
    transitivity ((2 ^ M + f) * 2 ^ k * (2 ^ t * 2 ^ (fulp w - M))); [ring|]. rewrite E. ring.
  Qed.
  (** rounding a value that is representable *)
  Lemma round_exact m : 0 <= m < f_inf w -> f_round w (V m) 0 = m.
  Proof.
    intros Hm. pose proof (val_nonneg d m ltac:(lia)) as Hv.
    destruct (f_round_nearest d (V m) 0 Hv ltac:(lia)) as [Hr Hn].
    destruct (Hn m ltac:(lia)) as [H1 _]. rewrite Z.pow_0_r, !Z.mul_1_r, Z.sub_diag in H1.
    apply (val_inj d); lia.
  Qed.
  Lemma big_multiple m : 0 <= m <= f_inf w -> 2 ^ M * one <= V m -> exists j, 0 <= j /\ V m = j * one.
  Proof.
    intros Hm Hb. pose proof fu_M. destruct (val_multiple d m (fulp w) Hm) as [H1|[H1 H2]]; [lia|auto|].
    rewrite Z.pow_add_r in H2 by lia. lia.
  Qed.
  Lemma int_round mu t : 0 <= mu <= 2 ^ (M + 1) -> 0 <= t <= 64 ->
    0 <= f_round w (mu * 2 ^ t * one) 0 < f_inf w /\ V (f_round w (mu * 2 ^ t * one) 0) = mu * 2 ^ t * one.
  Proof. intros Hmu Ht. destruct (int_rep mu t Hmu Ht) as (m & Hm & E). rewrite <- E, round_exact by auto. auto. Qed.
  Lemma V_mag x : V x = V (f_mag w x).
  Proof. unfold f_abs_val. assert (E : f_mag w (f_mag w x) = f_mag w x) by (unfold f_mag; apply Z.mod_mod; destruct d; discriminate). rewrite E. reflexivity. Qed.
  (** sign and magnitude *)
  Lemma val_sm b r : 0 <= r <= f_inf w -> f_val w (f_sign w b + r) = (if b then - V r else V r) /\ f_mag w (f_sign w b + r) = r /\
    f_neg w (f_sign w b + r) = b.
  Proof.
    intros Hr. pose proof (f_mag_join d b r) as H1. pose proof (f_neg_join d b r) as H2.
    rewrite (mag_id d r Hr) in *. split; [|auto]. unfold f_val. rewrite H2, (V_mag (f_sign w b + r)), H1. reflexivity.
  Qed.
  Lemma val_pos r : 0 <= r <= f_inf w -> f_val w r = V r.
  Proof. intros Hr. pose proof (val_sm false r Hr) as (H & _). exact H. Qed.
  Lemma finite_sm b r : 0 <= r < f_inf w -> f_finite w (f_sign w b + r) = true /\ f_nan w (f_sign w b + r) = false.
  Proof.
    intros Hr. destruct (val_sm b r ltac:(lia)) as (_ & H & _). unfold f_finite, f_nan. rewrite H.
    split; [apply Z.ltb_lt|apply Z.ltb_ge]; lia.
  Qed.
  Lemma finite_mag x : f_finite w x = true -> 0 <= f_mag w x < f_inf w /\ f_nan w x = false /\ f_isinf w x = false.
  Proof.
    intros H. pose proof (f_mag_range d x). unfold f_finite, f_nan, f_isinf in *. apply Z.ltb_lt in H.
    split; [lia|]. split; [apply Z.ltb_ge; lia|apply Z.eqb_neq; lia].
  Qed.
  (** exact conversions of integers *)
  Lemma of_int_ran n : 0 <= f_of_int w n < 2 ^ w.
  Proof.
    unfold f_of_int. destruct (Z.eqb_spec n 0). { destruct d; split; vm_compute; [discriminate|reflexivity|discriminate|reflexivity]. }
    apply sg_ran, round_ran; [|lia]. pose proof one_pos. nia.
  Qed.
  Lemma of_int_exact n mu t : Z.abs n = mu * 2 ^ t -> 0 <= mu <= 2 ^ (M + 1) -> 0 <= t <= 64 ->
    f_finite w (f_of_int w n) = true /\ f_val w (f_of_int w n) = n * one.
  Proof.
    intros En Hmu Ht. unfold f_of_int. destruct (Z.eqb_spec n 0) as [->|Hn].
    { destruct d; split; reflexivity. }
    rewrite En. destruct (int_round mu t Hmu Ht) as [Hr Ev]. split; [apply finite_sm; auto|].
    destruct (val_sm (n <? 0) (f_round w (mu * 2 ^ t * one) 0) ltac:(lia)) as (-> & _ & _). rewrite Ev, <- En.
    destruct (Z.ltb_spec n 0); lia.
  Qed.
  (** the nearest number to any integer *)
  Lemma of_int_nearest n : nearest_mag w (Z.abs n * one) 1 (f_mag w (f_of_int w n)) /\ f_neg w (f_of_int w n) = (n <? 0).
  Proof.
    pose proof one_pos. pose proof (f_round_nearest d (Z.abs n * one) 0 ltac:(nia) ltac:(lia)) as Hn.
    unfold f_of_int. destruct (Z.eqb_spec n 0) as [->|H0].
    - assert (E : f_round w (Z.abs 0 * one) 0 = 0).
      { change (Z.abs 0 * one) with 0. pose proof (round_exact 0) as HR. rewrite V_0 in HR. apply HR.
        pose proof (PM d); rewrite inf_E; pose proof fu_M; nia. }
      rewrite E in Hn. split; [|destruct d; reflexivity]. rewrite mag_id by (pose proof Hn as [? _]; lia). exact Hn.
    - destruct (val_sm (n <? 0) (f_round w (Z.abs n * one) 0)) as (_ & -> & ->); [apply Hn|]. split; auto.
  Qed.
  (** the native rounding instructions round *)
  Lemma quot_abs n : 0 <= Z.abs (Z.quot n one) /\ Z.abs (Z.quot n one) = Z.abs n / one.
  Proof.
    pose proof one_pos. split; [lia|]. destruct (Z.le_ge_cases 0 n).
    - rewrite Z.quot_div_nonneg by lia. rewrite Z.abs_eq, (Z.abs_eq n); auto. apply Z.div_pos; lia.
    - rewrite <- (Z.opp_involutive n), Z.quot_opp_l, Z.abs_opp, Z.abs_opp by lia.
      rewrite Z.quot_div_nonneg by lia. rewrite Z.abs_eq, (Z.abs_eq (- n)); [auto|lia|]. apply Z.div_pos; lia.
  Qed.
  Definition dir (g : Z -> Z -> Z) : Prop := (forall j, g (j * one) one = j) /\
    (forall n, 0 <= n -> 0 <= g n one <= n / one + 1) /\ (forall n, n <= 0 -> - (- n / one) - 1 <= g n one <= 0).
  Lemma dir_down : dir down.
  Proof.
    pose proof one_pos as HO. unfold down. split; [intros; apply Z.div_mul; lia|]. split; intros n Hn.
    - split; [apply Z.div_pos; lia|lia].
    - pose proof (Z.div_mod n one ltac:(lia)). pose proof (Z.mod_pos_bound n one HO).
      pose proof (Z.div_mod (- n) one ltac:(lia)). pose proof (Z.mod_pos_bound (- n) one HO). split; nia.
  Qed.
  Lemma dir_up : dir up.
  Proof.
    pose proof one_pos as HO. unfold up. split. { intros j. rewrite <- Z.mul_opp_l, Z.div_mul; lia. }
    split; intros n Hn; pose proof (Z.div_mod n one ltac:(lia)); pose proof (Z.mod_pos_bound n one HO);
      pose proof (Z.div_mod (- n) one ltac:(lia)); pose proof (Z.mod_pos_bound (- n) one HO); split; nia.
  Qed.
  Lemma dir_zero : dir to_zero.
  Proof.
    pose proof one_pos as HO. unfold to_zero. split; [intros; apply Z.quot_mul; lia|].
    split; intros n Hn.
    - rewrite Z.quot_div_nonneg by lia. split; [apply Z.div_pos; lia|lia].
    - rewrite <- (Z.opp_involutive n) at 2 3. rewrite Z.quot_opp_l, Z.quot_div_nonneg by lia.
      assert (0 <= - n / one) by (apply Z.div_pos; lia). lia.
  Qed.
  Lemma integral_rounds g x : dir g -> 0 <= x < 2 ^ w -> rounds_to g w x (f_integral g w x) /\ 0 <= f_integral g w x < 2 ^ w.
  Proof.
    intros (G1 & G2 & G3) Hx. pose proof one_pos as HO. unfold f_integral, rounds_to.
    destruct (f_nan w x) eqn:EN.
    { split; [|apply f_qnan_ran]. split; [intros; apply f_qnan_nan|].
      unfold f_nan in EN. apply Z.ltb_lt in EN. unfold f_isinf, f_finite.
      split; intros H; [apply Z.eqb_eq in H|apply Z.ltb_lt in H]; lia. }
    destruct (f_isinf w x) eqn:EI.
    { split; auto. split; [discriminate|]. split; auto. unfold f_isinf, f_finite in *. apply Z.eqb_eq in EI. intros H. apply Z.ltb_lt in H. lia. }
    assert (HF : f_finite w x = true). { unfold f_nan, f_isinf, f_finite in *. apply Z.ltb_ge in EN. apply Z.eqb_neq in EI. apply Z.ltb_lt. lia. }
    destruct (finite_mag x HF) as (Hm & _ & _).
    assert (Hv : f_val w x = if f_neg w x then - V (f_mag w x) else V (f_mag w x)) by (unfold f_val; rewrite <- V_mag; reflexivity).
    set (q := g (f_val w x) one). pose proof (val_nonneg d (f_mag w x) ltac:(lia)) as Hv0.
    assert (Hs : if f_neg w x then q <= 0 else 0 <= q).
    { unfold q. rewrite Hv. destruct (f_neg w x); [apply G3|apply G2]; lia. }
    assert (HE : exists m, 0 <= m < f_inf w /\ V m = Z.abs q * one).
    { destruct (Z.le_gt_cases (2 ^ M * one) (V (f_mag w x))) as [Hb|Hb].
      - destruct (big_multiple (f_mag w x) ltac:(lia) Hb) as (j & Hj & Ej). exists (f_mag w x). split; auto.
        unfold q. rewrite Hv, Ej. destruct (f_neg w x).
        + rewrite <- Z.mul_opp_l, G1. rewrite Z.abs_opp, Z.abs_eq; auto.
        + rewrite G1, Z.abs_eq; auto.
      - assert (Hdiv : V (f_mag w x) / one < 2 ^ M) by (apply Z.div_lt_upper_bound; lia).
        pose proof fu_M. assert (2 ^ (M + 1) = 2 * 2 ^ M) by (rewrite Z.pow_add_r by lia; lia).
        destruct (int_rep (Z.abs q) 0) as (m & Hm' & Em); [|lia|].
        + unfold q. rewrite Hv. destruct (f_neg w x).
          * pose proof (G3 (- V (f_mag w x)) ltac:(lia)) as HH. rewrite Z.opp_involutive in HH. lia.
          * pose proof (G2 (V (f_mag w x)) ltac:(lia)) as HH. lia.
        + exists m. split; auto. rewrite Em. lia. }
    destruct HE as (m & Hm' & Em). rewrite <- Em, round_exact by auto.
    split; [|apply sg_ran; lia]. split; [discriminate|]. split; [discriminate|]. intros _.
    split; [apply finite_sm; auto|]. destruct (val_sm (f_neg w x) m ltac:(lia)) as (-> & _ & _). rewrite Em.
    destruct (f_neg w x); [rewrite Z.abs_neq by lia|rewrite Z.abs_eq by lia]; lia.
  Qed.
  (** the integer above (V m)/1 is one more than the integer part of the previous pattern *)
  Lemma prev_int m : 0 < m <= f_inf w -> V m <= 2 ^ M * one -> V (m - 1) / one + 1 = up (V m) one.
  Proof.
    intros Hm Hb. pose proof one_pos as HO. pose proof fu_M as HM. unfold up.
    set (c := - (- V m / one)).
    assert (Hc : (c - 1) * one < V m <= c * one).
    { unfold c. pose proof (Z.div_mod (- V m) one ltac:(lia)). pose proof (Z.mod_pos_bound (- V m) one HO). nia. }
    assert (V0 : 0 < V m). { pose proof (val_mono d 0 m ltac:(lia) ltac:(lia) ltac:(lia)). pose proof (val_nonneg d 0 ltac:(lia)). lia. }
    assert (Hc1 : 1 <= c) by nia.
    assert (Hc2 : c <= 2 ^ M) by nia.
    assert (2 ^ (M + 1) = 2 * 2 ^ M) by (rewrite Z.pow_add_r by lia; lia).
    destruct (int_rep (c - 1) 0) as (m' & Hm' & Em); [lia|lia|]. rewrite Z.pow_0_r, Z.mul_1_r in Em.
    assert (m' < m). { destruct (Z.lt_ge_cases m' m); auto. destruct (Z.eq_dec m m') as [->|]; [lia|].
      pose proof (val_mono d m m' ltac:(lia) ltac:(lia) ltac:(lia)). lia. }
    assert (V m' <= V (m - 1)). { destruct (Z.eq_dec m' (m - 1)) as [->|]; [lia|]. pose proof (val_mono d m' (m - 1) ltac:(lia) ltac:(lia) ltac:(lia)). lia. }
    pose proof (val_mono d (m - 1) m ltac:(lia) ltac:(lia) ltac:(lia)).
    assert (V (m - 1) / one = c - 1); [|lia]. symmetry. apply (Z.div_unique _ one _ (V (m - 1) - (c - 1) * one)); lia.
  Qed.
End S.
