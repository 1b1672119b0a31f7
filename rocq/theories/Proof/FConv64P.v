(** Conversions to and from float64: the numbers *)
From Verif Require Import Proof.FloatsP3 Proof.FloatRoundP Proof.FArithP Proof.FConvP.
From Verif Require Export Spec.FloatConv64.
From Coq Require Import Lia.

Local Notation U := (2 ^ unit_gap).
Lemma U_pos : 0 < U. Proof. reflexivity. Qed.
(** numbers of at most 53 significant bits that are not too small are values of float64 patterns *)
Lemma rep64 mu s : 0 <= mu <= 2 ^ 53 -> 52 <= s <= 1990 -> exists m, 0 <= m < f_inf 64 /\ f_abs_val 64 m = mu * 2 ^ s.
Proof.
  intros Hmu Hs. pose proof (inf_E true) as HE. change (fw true) with 64 in HE. change (fexp true) with 2047 in HE. change (fmant 64) with 52 in HE.
  destruct (Z.eq_dec mu 0) as [->|Hn].
  { exists 0. split; [split; [lia|reflexivity]|reflexivity]. }
  assert (Hk : exists k f, 0 <= k <= 53 /\ 0 <= f < 2 ^ 52 /\ (2 ^ 52 + f) * 2 ^ k = mu * 2 ^ 52).
  { set (k := Z.log2 mu). destruct (Z.log2_spec mu ltac:(lia)) as [B1 B2]. fold k in B1, B2.
    assert (0 <= k) by apply Z.log2_nonneg.
    assert (k <= 53). { apply (Z.pow_le_mono_r_iff 2); lia. }
    destruct (Z.eq_dec k 53) as [Ek|Ek].
    { exists k, 0. rewrite Ek in *. split; [lia|]. split; [lia|]. assert (mu = 2 ^ 53) as -> by lia. lia. }
    exists k, ((mu - 2 ^ k) * 2 ^ (52 - k)). split; [lia|].
    assert (E : 2 ^ 52 = 2 ^ k * 2 ^ (52 - k)) by (rewrite <- Z.pow_add_r by lia; f_equal; lia).
    assert (0 < 2 ^ (52 - k)) by (apply Z.pow_pos_nonneg; lia).
    rewrite Z.pow_succ_r in B2 by lia. split; [|rewrite E; ring]. rewrite E. split; [nia|]. apply Z.mul_lt_mono_pos_r; lia. }
  destruct Hk as (k & f & Hk & Hf & E). set (e := s - 51 + k).
  assert (0 < 2 ^ 52) by reflexivity.
  assert (He : (e + 1) * 2 ^ 52 <= f_inf 64) by (rewrite HE; apply Z.mul_le_mono_nonneg_r; [lia|unfold e; lia]).
  exists (e * 2 ^ 52 + f). split; [unfold e in *; split; nia|].
  pose proof (val_def true e f) as HV. change (fw true) with 64 in HV. change (fmant 64) with 52 in HV.
  rewrite HV by (unfold e in *; nia). destruct (Z.eqb_spec e 0); [unfold e in *; lia|].
  replace (e - 1) with (k + (s - 52)) by (unfold e; lia). rewrite Z.pow_add_r by lia.
  replace s with (52 + (s - 52)) at 2 by lia. rewrite Z.pow_add_r by lia.
  transitivity ((2 ^ 52 + f) * 2 ^ k * 2 ^ (s - 52)); [ring|]. rewrite E. ring.
Qed.
(** every finite float32 is a float64 *)
Lemma widen_rep m : 0 <= m < f_inf 32 -> exists m', 0 <= m' < f_inf 64 /\ f_abs_val 64 m' = f_abs_val 32 m * U.
Proof.
  intros Hm. destruct (mag_parts false m) as (e & f & -> & He & Hf); [exact (conj (proj1 Hm) (Z.lt_le_incl _ _ (proj2 Hm)))|].
  change (fmant (fw false)) with 23 in *. change (fexp false) with 255 in He.
  pose proof (val_def false e f) as HV. change (fw false) with 32 in HV. change (fmant 32) with 23 in HV. rewrite HV by lia. clear HV.
  unfold unit_gap. destruct (Z.eqb_spec e 0).
  - apply (rep64 f 925); [|lia]. change (2 ^ 53) with 9007199254740992. change (2 ^ 23) with 8388608 in Hf. lia.
  - destruct (rep64 (2 ^ 23 + f) (e - 1 + 925)) as (m' & Hm' & E).
    + change (2 ^ 53) with 9007199254740992. change (2 ^ 23) with 8388608 in *. lia.
    + lia.
    + exists m'. split; auto. rewrite E, Z.pow_add_r by lia. ring.
Qed.
Lemma V32_mag x : f_abs_val 32 x = f_abs_val 32 (f_mag 32 x). Proof. exact (V_mag false x). Qed.
Lemma V64_mag x : f_abs_val 64 x = f_abs_val 64 (f_mag 64 x). Proof. exact (V_mag true x). Qed.
Lemma f_mag_lt w x : (0 <=? w - 1) = true -> 0 <= f_mag w x < 2 ^ (w - 1).
Proof. intros H. apply Z.leb_le in H. unfold f_mag. apply Z.mod_pos_bound, Z.pow_pos_nonneg; lia. Qed.
Lemma V64_nonneg x : 0 <= f_abs_val 64 x.
Proof. apply (abs_val_nonneg true). Qed.
Lemma V32_nonneg x : 0 <= f_abs_val 32 x.
Proof. apply (abs_val_nonneg false). Qed.
Lemma f_class w x : (f_nan w x = true /\ f_isinf w x = false /\ f_finite w x = false) \/ (f_nan w x = false /\ f_isinf w x = true /\ f_finite w x = false) \/
  (f_nan w x = false /\ f_isinf w x = false /\ f_finite w x = true).
Proof.
  unfold f_nan, f_isinf, f_finite. destruct (Z.compare_spec (f_mag w x) (f_inf w)).
  - right. left. split; [apply Z.ltb_ge; lia|]. split; [apply Z.eqb_eq; auto|apply Z.ltb_ge; lia].
  - right. right. split; [apply Z.ltb_ge; lia|]. split; [apply Z.eqb_neq; lia|apply Z.ltb_lt; lia].
  - left. split; [apply Z.ltb_lt; lia|]. split; [apply Z.eqb_neq; lia|apply Z.ltb_ge; lia].
Qed.
Lemma mag_fin w x : (0 <=? w - 1) = true -> f_finite w x = true -> 0 <= f_mag w x < f_inf w.
Proof. intros Hw H. unfold f_finite in H. apply Z.ltb_lt in H. pose proof (f_mag_lt w x Hw). lia. Qed.
Lemma f_widen_round m : 0 <= m < f_inf 32 -> 0 <= f_round 64 (f_abs_val 32 m * U) 0 < f_inf 64 /\ f_abs_val 64 (f_round 64 (f_abs_val 32 m * U) 0) = f_abs_val 32 m * U.
Proof.
  intros Hm. destruct (widen_rep m Hm) as (m' & Hm' & E). rewrite <- E. pose proof (round_exact true m' Hm') as HR. change (fw true) with 64 in HR.
  rewrite HR. auto.
Qed.
Theorem f_widen_ok x : widened x (f_widen x) /\ 0 <= f_widen x < 2 ^ 64.
Proof.
  unfold widened, f_widen. destruct (f_class 32 x) as [(-> & -> & ->)|[(-> & -> & ->)|(-> & -> & EF)]].
  - split; [|split; [discriminate|reflexivity]]. split; [intros; reflexivity|]. split; [discriminate|]. split; discriminate.
  - pose proof (sg_ran true (f_neg 32 x) (f_inf 64) ltac:(split; [discriminate|apply Z.le_refl])) as HR. change (fw true) with 64 in HR. split; [|exact HR].
    destruct (val_sm true (f_neg 32 x) (f_inf 64)) as (_ & H2 & H3); [split; [discriminate|apply Z.le_refl]|]. change (fw true) with 64 in *.
    split; [discriminate|]. split; [intros; exact H3|]. split; [|discriminate]. intros _. unfold f_isinf. rewrite H2. apply Z.eqb_refl.
  - pose proof (mag_fin 32 x eq_refl EF) as Hm. rewrite V32_mag. destruct (f_widen_round _ Hm) as [Hr Ev].
    set (r := f_round 64 _ 0) in *. rewrite EF.
    pose proof (sg_ran true (f_neg 32 x) r ltac:(change (fw true) with 64; lia)) as HR. change (fw true) with 64 in HR. split; [|exact HR].
    destruct (val_sm true (f_neg 32 x) r) as (H1 & H2 & H3); [change (fw true) with 64; lia|]. destruct (finite_sm true (f_neg 32 x) r) as (H4 & _); [exact Hr|]. change (fw true) with 64 in *.
    split; [discriminate|]. split; [intros; exact H3|]. split; [discriminate|]. intros _. split; auto. rewrite H1, Ev. unfold f_val. rewrite (V32_mag x). destruct (f_neg 32 x); ring.
Qed.
Lemma narrow_near n : 0 <= n -> nearest_mag 32 n U (f_round 32 n unit_gap).
Proof. intros Hn. apply (f_round_nearest false n unit_gap Hn). discriminate. Qed.
Theorem f_narrow_ok x : narrowed x (f_narrow x) /\ 0 <= f_narrow x < 2 ^ 32.
Proof.
  unfold narrowed, f_narrow. destruct (f_class 64 x) as [(-> & -> & ->)|[(-> & -> & ->)|(-> & -> & EF)]].
  - split; [|split; [discriminate|reflexivity]]. split; [intros; reflexivity|]. split; [discriminate|]. split; discriminate.
  - pose proof (sg_ran false (f_neg 64 x) (f_inf 32) ltac:(split; [discriminate|apply Z.le_refl])) as HR. change (fw false) with 32 in HR. split; [|exact HR].
    destruct (val_sm false (f_neg 64 x) (f_inf 32)) as (_ & H2 & H3); [split; [discriminate|apply Z.le_refl]|]. change (fw false) with 32 in *.
    split; [discriminate|]. split; [intros; exact H3|]. split; [|discriminate]. intros _. unfold f_isinf. rewrite H2. apply Z.eqb_refl.
  - pose proof (narrow_near (f_abs_val 64 x) (V64_nonneg x)) as HN. set (r := f_round 32 _ _) in *. pose proof (proj1 HN) as Hr.
    pose proof (sg_ran false (f_neg 64 x) r Hr) as HR. change (fw false) with 32 in HR. split; [|exact HR].
    destruct (val_sm false (f_neg 64 x) r Hr) as (_ & H2 & H3). change (fw false) with 32 in *.
    split; [discriminate|]. split; [intros; exact H3|]. split; [discriminate|]. intros _. rewrite H2. exact HN.
Qed.
(** narrowing undoes widening *)
Theorem narrow_widen x : 0 <= x < 2 ^ 32 -> f_nan 32 x = false -> f_narrow (f_widen x) = x.
Proof.
  intros Hx HN. destruct (f_widen_ok x) as [(_ & W2 & W3 & W4) _]. specialize (W2 HN). unfold f_narrow.
  assert (Hj : x = f_sign 32 (f_neg 32 x) + f_mag 32 x). { apply (f_split false). exact Hx. }
  destruct (f_class 32 x) as [(E & _)|[(_ & EI & _)|(_ & _ & EF)]]; [rewrite HN in E; discriminate E| |].
  - specialize (W3 EI). destruct (f_class 64 (f_widen x)) as [(_ & E & _)|[(-> & -> & _)|(_ & E & _)]]; try (rewrite W3 in E; discriminate E).
    rewrite W2. unfold f_isinf in EI. apply Z.eqb_eq in EI. rewrite <- EI. auto.
  - destruct (W4 EF) as [F4 V4]. destruct (f_class 64 (f_widen x)) as [(_ & _ & E)|[(_ & _ & E)|(-> & -> & _)]]; try (rewrite F4 in E; discriminate E).
    rewrite W2. transitivity (f_sign 32 (f_neg 32 x) + f_mag 32 x); [|symmetry; exact Hj]. f_equal. pose proof (mag_fin 32 x eq_refl EF) as Hm.
    assert (E : f_abs_val 64 (f_widen x) = f_abs_val 32 (f_mag 32 x) * U).
    { rewrite <- V32_mag. unfold f_val in V4. rewrite W2 in V4. destruct (f_neg 32 x); lia. }
    rewrite E. destruct (narrow_near (f_abs_val 32 (f_mag 32 x) * U)) as [Hr Hn]. { pose proof (V32_nonneg (f_mag 32 x)). pose proof U_pos. nia. }
    destruct (Hn (f_mag 32 x) ltac:(lia)) as [H1 _]. rewrite Z.sub_diag in H1. apply (val_inj false); [exact Hr|exact (conj (proj1 Hm) (Z.lt_le_incl _ _ (proj2 Hm)))|].
    change (fw false) with 32. pose proof U_pos. nia.
Qed.
Lemma V32_mono m m' : 0 <= m -> m < m' -> m' <= f_inf 32 -> f_abs_val 32 m < f_abs_val 32 m'. Proof. exact (val_mono false m m'). Qed.
Theorem f_chop_ok x : chopped x (f_chop x) /\ 0 <= f_chop x < 2 ^ 32.
Proof.
  unfold chopped, f_chop. destruct (f_class 64 x) as [(-> & -> & ->)|[(-> & -> & ->)|(-> & -> & EF)]].
  - split; [|split; [discriminate|reflexivity]]. split; [intros; reflexivity|]. split; [discriminate|]. split; discriminate.
  - pose proof (sg_ran false (f_neg 64 x) (f_inf 32) ltac:(split; [discriminate|apply Z.le_refl])) as HR. change (fw false) with 32 in HR. split; [|exact HR].
    destruct (val_sm false (f_neg 64 x) (f_inf 32)) as (_ & H2 & H3); [split; [discriminate|apply Z.le_refl]|]. change (fw false) with 32 in *.
    split; [discriminate|]. split; [intros; exact H3|]. split; [|discriminate]. intros _. unfold f_isinf. rewrite H2. apply Z.eqb_refl.
  - pose proof (narrow_near (f_abs_val 64 x) (V64_nonneg x)) as [Hr Hn]. set (n := f_abs_val 64 x) in *. pose proof (V64_nonneg x) as Hn0. fold n in Hn0.
    set (r0 := f_round 32 n unit_gap) in *. set (r1 := Z.min (f_inf 32 - 1) r0). cbv zeta. pose proof U_pos as HU.
    assert (HI : 1 < f_inf 32) by reflexivity.
    assert (V0 : f_abs_val 32 0 = 0) by reflexivity.
    assert (Hr1 : 0 <= r1 <= f_inf 32 - 1) by lia.
    set (r := if n <? f_abs_val 32 r1 * U then r1 - 1 else r1).
    assert (HS : 0 <= r <= f_inf 32 - 1 /\ f_abs_val 32 r * U <= n /\ forall m, 0 <= m < f_inf 32 -> f_abs_val 32 m * U <= n -> m <= r).
    { unfold r. destruct (Z.ltb_spec n (f_abs_val 32 r1 * U)) as [HL|HL].
      - assert (1 <= r1). { destruct (Z.eq_dec r1 0) as [E|E]; [rewrite E, V0 in HL; lia|lia]. }
        pose proof (V32_mono (r1 - 1) r1 ltac:(lia) ltac:(lia) ltac:(lia)) as HM.
        split; [lia|]. split.
        + destruct (Z.eq_dec r0 r1) as [E|E].
          * destruct (Hn (r1 - 1) ltac:(lia)) as [H1 _]. rewrite E in H1. nia.
          * assert (r0 = f_inf 32) as E0 by lia. destruct (Hn r1 ltac:(lia)) as [H1 _]. pose proof (V32_mono r1 r0 ltac:(lia) ltac:(lia) ltac:(lia)). nia.
        + intros m Hm Hv. destruct (Z.le_gt_cases m (r1 - 1)); auto. exfalso.
          destruct (Z.eq_dec m r1) as [->|]; [lia|]. pose proof (V32_mono r1 m ltac:(lia) ltac:(lia) ltac:(lia)). nia.
      - split; [lia|]. split; auto. intros m Hm Hv. destruct (Z.le_gt_cases m r1); auto. exfalso.
        assert (r0 = r1) as E by lia. destruct (Hn m ltac:(lia)) as [H1 _]. rewrite E in H1. pose proof (V32_mono r1 m ltac:(lia) ltac:(lia) ltac:(lia)). nia. }
    destruct HS as (HS1 & HS2 & HS3). clearbody r.
    pose proof (sg_ran false (f_neg 64 x) r ltac:(change (fw false) with 32; lia)) as HR. change (fw false) with 32 in HR. split; [|exact HR].
    destruct (val_sm false (f_neg 64 x) r) as (_ & H2 & H3); [change (fw false) with 32; lia|]. change (fw false) with 32 in *.
    split; [discriminate|]. split; [intros; exact H3|]. split; [discriminate|]. intros _. rewrite (V32_mag (f_sign 32 (f_neg 64 x) + r)), H2. split; [|auto].
    unfold f_finite. rewrite H2. apply Z.ltb_lt. lia.
Qed.
(** a number that is a float32 is not changed by either *)
Theorem chop_widen x : 0 <= x < 2 ^ 32 -> f_nan 32 x = false -> f_chop (f_widen x) = x.
Proof.
  intros Hx HN. destruct (f_widen_ok x) as [(_ & W2 & W3 & W4) _]. specialize (W2 HN).
  assert (Hj : x = f_sign 32 (f_neg 32 x) + f_mag 32 x). { apply (f_split false). exact Hx. }
  destruct (f_chop_ok (f_widen x)) as [(_ & C2 & C3 & C4) HR].
  assert (Hj2 : f_chop (f_widen x) = f_sign 32 (f_neg 32 (f_chop (f_widen x))) + f_mag 32 (f_chop (f_widen x))). { apply (f_split false). exact HR. }
  rewrite Hj2. transitivity (f_sign 32 (f_neg 32 x) + f_mag 32 x); [|symmetry; exact Hj].
  destruct (f_class 32 x) as [(E & _)|[(_ & EI & _)|(_ & _ & EF)]]; [rewrite HN in E; discriminate E| |].
  - specialize (W3 EI). specialize (C3 W3). destruct (f_class 64 (f_widen x)) as [(_ & E & _)|[(E & _ & _)|(_ & E & _)]]; try (rewrite W3 in E; discriminate E).
    rewrite (C2 E), W2. f_equal. unfold f_isinf in C3, EI. apply Z.eqb_eq in C3. apply Z.eqb_eq in EI. rewrite C3, EI. reflexivity.
  - destruct (W4 EF) as [F4 V4]. destruct (f_class 64 (f_widen x)) as [(_ & _ & E)|[(_ & _ & E)|(E & _ & _)]]; try (rewrite F4 in E; discriminate E).
    rewrite (C2 E), W2. f_equal. destruct (C4 F4) as (D1 & D2 & D3). pose proof (mag_fin 32 x eq_refl EF) as Hm. pose proof (mag_fin 32 _ eq_refl D1) as Hm'. pose proof U_pos as HU.
    assert (EV : f_abs_val 64 (f_widen x) = f_abs_val 32 (f_mag 32 x) * U).
    { rewrite <- V32_mag. unfold f_val in V4. rewrite W2 in V4. destruct (f_neg 32 x); lia. }
    rewrite EV in *. rewrite V32_mag in D2. specialize (D3 (f_mag 32 x) Hm ltac:(lia)). set (r := f_mag 32 (f_chop _)) in *. set (m := f_mag 32 x) in *. clearbody r m.
    destruct (Z.eq_dec r m); auto. pose proof (V32_mono m r ltac:(lia) ltac:(lia) ltac:(lia)). nia.
Qed.

(** integers of at most 53 bits *)
Lemma of_int64_exact n : Z.abs n <= 2 ^ 53 -> f_finite 64 (f_of_int 64 n) = true /\ f_val 64 (f_of_int 64 n) = n * 2 ^ fulp 64.
Proof. intros Hn. apply (of_int_exact true n (Z.abs n) 0); [rewrite Z.pow_0_r; lia| |lia]. change (2 ^ (fmant (fw true) + 1)) with (2 ^ 53). lia. Qed.
Lemma of_int64_ran n : 0 <= f_of_int 64 n < 2 ^ 64. Proof. exact (of_int_ran true n). Qed.
(** uint32 by way of int32: x - 2^32 is corrected *)
Definition u32_fix (x : Z) : Z :=
  let f := f_of_int 64 (sgn 32 x) in if f_lt 64 f 0 then f_add 64 f 0x41f0000000000000 else f.
Lemma u32_fix_ok x : 0 <= x < 2 ^ 32 -> u32_fix x = f_of_int 64 x.
Proof.
  intros Hx. change (2 ^ 32) with 4294967296 in Hx.
  assert (HS : sgn 32 x = if x <? 2147483648 then x else x - 4294967296).
  { unfold sgn, wrap. change (2 ^ 32) with 4294967296. change (2 ^ (32 - 1)) with 2147483648. rewrite Z.mod_small by lia. reflexivity. }
  destruct (of_int64_exact (sgn 32 x)) as [EF EV]. { rewrite HS. change (2 ^ 53) with 9007199254740992. destruct (Z.ltb_spec x 2147483648); lia. }
  assert (HU : 0 < 2 ^ fulp 64) by reflexivity. unfold u32_fix. cbv zeta. set (f := f_of_int 64 (sgn 32 x)) in *.
  assert (NF : f_nan 64 f = false /\ f_isinf 64 f = false). { destruct (f_class 64 f) as [(_ & _ & E)|[(_ & _ & E)|(E1 & E2 & _)]]; [rewrite EF in E; discriminate E|rewrite EF in E; discriminate E|auto]. }
  destruct NF as [NF IF]. unfold f_lt, f_unord. rewrite NF. change (f_nan 64 0) with false. change (f_val 64 0) with 0. cbn [orb negb andb].
  rewrite EV. rewrite HS. destruct (Z.ltb_spec x 2147483648).
  - assert (x * 2 ^ fulp 64 <? 0 = false) as -> by (apply Z.ltb_ge; nia). unfold f. rewrite HS. destruct (Z.ltb_spec x 2147483648); [reflexivity|lia].
  - assert ((x - 4294967296) * 2 ^ fulp 64 <? 0 = true) as -> by (apply Z.ltb_lt; nia).
    unfold f_add, f_unord. rewrite NF, IF. change (f_nan 64 0x41f0000000000000) with false. change (f_isinf 64 0x41f0000000000000) with false. cbn [orb].
    rewrite EV. assert (E2 : f_val 64 0x41f0000000000000 = 4294967296 * 2 ^ fulp 64) by (vm_compute; reflexivity). rewrite E2, HS.
    destruct (Z.ltb_spec x 2147483648); [lia|]. replace ((x - 4294967296) * 2 ^ fulp 64 + 4294967296 * 2 ^ fulp 64) with (x * 2 ^ fulp 64) by ring.
    assert (0 < x * 2 ^ fulp 64) by nia. destruct (Z.eqb_spec (x * 2 ^ fulp 64) 0); [lia|].
    unfold f_of_int. destruct (Z.eqb_spec x 0); [lia|]. rewrite (Z.abs_eq x), (Z.abs_eq (x * 2 ^ fulp 64)) by lia.
    destruct (Z.ltb_spec (x * 2 ^ fulp 64) 0); [lia|]. destruct (Z.ltb_spec x 0); [lia|]. reflexivity.
Qed.
