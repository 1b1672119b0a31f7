(** floor, ceil, trunc of float32 by conversion to integers: one lane *)
From Verif Require Import Proof.FloatsP3 Proof.FloatRoundP Proof.FArithP Proof.FConvP Proof.FConvP4 Proof.FRoundP.
From Verif Require Export Model.FRound.
From Coq Require Import Lia.

Notation V := (f_abs_val 32).
(** to_int32 on the architectures that use it here *)
Definition cvt (A : arch) (x : Z) : Z := if use_sse2 A then mm_cvtt_s x else sat_s x.
Lemma f_int_sm s r : 0 <= r < f_inf 32 -> f_int 32 (f_sign 32 s + r) = if s then - (V r / one) else V r / one.
Proof.
  intros Hr. unfold f_int. destruct (val_sm false s r ltac:(change (fw false) with 32; lia)) as (E & _ & _). change (fw false) with 32 in E. rewrite E.
  pose proof (one_pos false) as HO. change (fw false) with 32 in HO.
  pose proof (abs_val_nonneg false r) as HV. change (fw false) with 32 in HV.
  destruct s.
  - rewrite Z.quot_opp_l by lia. rewrite Z.quot_div_nonneg by lia. reflexivity.
  - apply Z.quot_div_nonneg; lia.
Qed.

Lemma cvt_sm A s r : 0 <= r < f_inf 32 -> V r <= 2 ^ 23 * one ->
  cvt A (f_sign 32 s + r) = wrap 32 (if s then - (V r / one) else V r / one).
Proof.
  intros Hr Hv. pose proof (f_int_sm s r Hr) as EI. destruct (finite_sm false s r Hr) as [HF _]. change (fw false) with 32 in HF.
  pose proof (one_pos false) as HO. change (fw false) with 32 in HO.
  pose proof (abs_val_nonneg false r) as HV. change (fw false) with 32 in HV.
  assert (0 <= V r / one <= 2 ^ 23). { split; [apply Z.div_pos; lia|]. rewrite <- (Z.div_mul (2 ^ 23) one) by lia. apply Z.div_le_mono; lia. }
  assert (HX : fits_s32 (f_sign 32 s + r) = true).
  { apply fits_intro; auto. rewrite EI. change (2 ^ 23) with 8388608 in *. pw. destruct s; lia. }
  rewrite <- EI. unfold cvt, mm_cvtt_s. rewrite HX. destruct (use_sse2 A); auto. apply sat_s_fits; auto.
Qed.
Lemma sgn_wrap_add n k s : Z.abs (n + k) < 2 ^ 24 -> s = wrap 32 n -> sgn 32 (wrap 32 (s + k)) = n + k.
Proof.
  intros Hn ->. rewrite sgn_wrap. unfold sgn, wrap in *. assert (E : (n mod 2 ^ 32 + k) mod 2 ^ 32 = (n + k) mod 2 ^ 32) by (apply Z.add_mod_idemp_l; discriminate).
  pose proof (sgn_id 32 (n + k)) as H. unfold sgn, wrap in H. cbv zeta in *. rewrite E. apply H; [lia|]. change (2 ^ 24) with 16777216 in Hn. change (2 ^ (32 - 1)) with 2147483648. lia.
Qed.
Section S.
  Variable A : arch.
  Variable b : bool.
  Notation z := (fz b 32).
  Definition floor_l (x : Z) : Z := if rg_in b true 0x4afffffe x then f_of_int 32 (sgn 32 (wrap 32 (wrap 32 (cvt A (wrap 32 (x - x / 2 ^ 31)) - x / 2 ^ 31)))) else x.
  Definition ceil_l (x : Z) : Z := let s := Z.lxor (x / 2 ^ 31) 1 in
    if rg_in b true 0x4afffffe x then f_of_int 32 (sgn 32 (wrap 32 (wrap 32 (cvt A (wrap 32 (x - s)) + s)))) else x.
  Definition trunc_l (x : Z) : Z := if rg_in b false 0x4b000000 x then f_of_int 32 (sgn 32 (cvt A x)) else x.
  Lemma split32 x : 0 <= x < 2 ^ 32 -> x = f_sign 32 (f_neg 32 x) + f_mag 32 x /\ x / 2 ^ 31 = if f_neg 32 x then 1 else 0.
  Proof.
    intros Hx. unfold f_neg, f_mag, f_sign. change (32 - 1) with 31. pose proof (Z.div_mod x (2 ^ 31) ltac:(discriminate)) as E. pose proof (Z.mod_pos_bound x (2 ^ 31) ltac:(reflexivity)).
    pw. change (2 ^ 31) with 2147483648 in *. destruct (Z.leb_spec 2147483648 x); split; try lia.
  Qed.
  Lemma range_val m c : 0 < m <= c -> c < f_inf 32 -> V m <= V c.
  Proof. intros H Hc. destruct (Z.eq_dec m c) as [->|]; [lia|]. pose proof (val_mono false m c) as HM. change (fw false) with 32 in HM. lia. Qed.

  Lemma top : V 0x4afffffe <= 8388607 * one /\ V 0x4b000000 = 8388608 * one. Proof. split; [vm_compute; discriminate|vm_compute; reflexivity]. Qed.
  (** the parts of a lane in range *)
  Lemma rg_parts le c x : 0 <= x < 2 ^ 32 -> c <= 0x4b000000 -> 0 < c -> (c = 0x4afffffe \/ le = false /\ c = 0x4b000000) -> rg_in b le c x = true ->
    exists s m, x = f_sign 32 s + m /\ x / 2 ^ 31 = (if s then 1 else 0) /\ 0 < m < f_inf 32 /\ V m < 2 ^ 23 * one /\ 0 <= V m /\
      0 <= V (m - 1) <= V m /\ V (m - 1) / one + 1 = up (V m) one /\
      f_val 32 x = (if s then - V m else V m) /\ f_finite 32 x = true /\ z x = x /\ 0 <= V m / one < 2 ^ 23 /\ 0 <= V (m - 1) / one < 2 ^ 23.
  Proof.
    intros Hx Hc Hc0 Hcc H. apply rg_in_true in H as (HF & Hz & Hm & Hle); auto; [|change (f_inf 32) with 0x7f800000; lia].
    destruct (split32 x Hx) as [E1 E2]. exists (f_neg 32 x), (f_mag 32 x).
    pose proof (one_pos false) as HO. change (fw false) with 32 in HO.
    assert (HI : f_mag 32 x < f_inf 32) by (change (f_inf 32) with 0x7f800000; destruct le; lia).
    assert (HVm : V (f_mag 32 x) < 2 ^ 23 * one).
    { destruct top as [T1 T2]. destruct Hcc as [-> | [-> ->]].
      - assert (f_mag 32 x <= 0x4afffffe) by (destruct le; lia). pose proof (range_val (f_mag 32 x) 0x4afffffe ltac:(lia) ltac:(reflexivity)). change (2 ^ 23) with 8388608. lia.
      - pose proof (val_mono false (f_mag 32 x) 0x4b000000) as HM. change (fw false) with 32 in HM. change (2 ^ 23) with 8388608. rewrite <- T2. apply HM; change (f_inf 32) with 0x7f800000; lia. }
    pose proof (abs_val_nonneg false (f_mag 32 x)) as P1. pose proof (abs_val_nonneg false (f_mag 32 x - 1)) as P2. change (fw false) with 32 in P1, P2.
    assert (PM : V (f_mag 32 x - 1) < V (f_mag 32 x)). { pose proof (val_mono false (f_mag 32 x - 1) (f_mag 32 x)) as HM. change (fw false) with 32 in HM. apply HM; lia. }
    assert (PI : V (f_mag 32 x - 1) / one + 1 = up (V (f_mag 32 x)) one).
    { apply (prev_int false); change (fw false) with 32; [lia|]. change (fmant 32) with 23. lia. }
    assert (Q : forall v, 0 <= v < 2 ^ 23 * one -> 0 <= v / one < 2 ^ 23). { intros v Hv. split; [apply Z.div_pos; lia|apply Z.div_lt_upper_bound; lia]. }
    destruct (val_sm false (f_neg 32 x) (f_mag 32 x) ltac:(change (fw false) with 32; lia)) as (EV & _ & _). change (fw false) with 32 in EV. rewrite <- E1 in EV.
    repeat (split; [first [assumption | lia | split; lia | apply Q; lia]|]). apply Q; lia.
  Qed.
  Lemma floor_lane x : 0 <= x < 2 ^ 32 -> f_mag 32 x <> 0x4affffff -> rounds_to down 32 (z x) (z (floor_l x)).
  Proof.
    intros Hx Hn. unfold floor_l. destruct (rg_in b true 0x4afffffe x) eqn:ER.
    - apply rg_parts in ER as (s & m & Ex & Es & Hm & Hv & P0 & P1 & PI & EV & HF & Hz & Q1 & Q2); auto; try lia.
      assert (EN : sgn 32 (wrap 32 (wrap 32 (cvt A (wrap 32 (x - x / 2 ^ 31)) - x / 2 ^ 31))) = down (f_val 32 x) one).
      { rewrite (wrap_small 32 (wrap 32 _)) by (apply wrap_range; lia). rewrite Es, EV. change (2 ^ 23) with 8388608 in *. destruct s.
        - rewrite (wrap_small 32 (x - 1)) by (rewrite Ex; unfold f_sign; change (f_inf 32) with 0x7f800000 in *; change (2 ^ (32 - 1)) with 0x80000000; change (2 ^ 32) with 0x100000000; lia).
          replace (x - 1) with (f_sign 32 true + (m - 1)) by lia. unfold down. rewrite cvt_sm by lia.
          rewrite <- Z.add_opp_r. rewrite (sgn_wrap_add (- (V (m - 1) / one)) (-(1))) by first [reflexivity | change (2 ^ 24) with 16777216; lia].
          unfold up in PI. lia.
        - rewrite !Z.sub_0_r, (wrap_small 32 x) by lia. rewrite Ex, cvt_sm by lia. rewrite <- (Z.add_0_r (wrap 32 (V m / one))).
          rewrite (sgn_wrap_add (V m / one) 0) by first [reflexivity | change (2 ^ 24) with 16777216; lia]. unfold down. lia. }
      apply z_rounds; auto. rewrite EN, EV. change (2 ^ 23) with 8388608 in *. change (2 ^ 24) with 16777216. unfold down. destruct s; [|lia]. unfold up in PI. lia.
    - apply rg_in_false with (le := true) (c := 0x4afffffe); auto; [apply dir_down|change (f_inf 32) with 0x7f800000; lia|]. intros [H|[_ H]]; [lia|discriminate].
  Qed.
  Lemma ceil_lane x : 0 <= x < 2 ^ 32 -> f_mag 32 x <> 0x4affffff -> rounds_to up 32 (z x) (z (ceil_l x)).
  Proof.
    intros Hx Hn. unfold ceil_l. cbv zeta. destruct (rg_in b true 0x4afffffe x) eqn:ER.
    - apply rg_parts in ER as (s & m & Ex & Es & Hm & Hv & P0 & P1 & PI & EV & HF & Hz & Q1 & Q2); auto; try lia.
      assert (EN : sgn 32 (wrap 32 (wrap 32 (cvt A (wrap 32 (x - Z.lxor (x / 2 ^ 31) 1)) + Z.lxor (x / 2 ^ 31) 1))) = up (f_val 32 x) one).
      { rewrite (wrap_small 32 (wrap 32 _)) by (apply wrap_range; lia). rewrite Es, EV. change (2 ^ 23) with 8388608 in *. destruct s.
        - change (Z.lxor 1 1) with 0. rewrite Z.sub_0_r, (wrap_small 32 x) by lia. rewrite Ex, cvt_sm by lia.
          rewrite (sgn_wrap_add (- (V m / one)) 0) by first [reflexivity | change (2 ^ 24) with 16777216; lia]. unfold up. rewrite Z.opp_involutive. lia.
        - change (Z.lxor 0 1) with 1. rewrite (wrap_small 32 (x - 1)) by (rewrite Ex; unfold f_sign; change (f_inf 32) with 0x7f800000 in *; change (2 ^ 32) with 0x100000000; lia).
          replace (x - 1) with (f_sign 32 false + (m - 1)) by lia. rewrite cvt_sm by lia.
          rewrite (sgn_wrap_add (V (m - 1) / one) 1) by first [reflexivity | change (2 ^ 24) with 16777216; lia]. exact PI. }
      apply z_rounds; auto. rewrite EN, EV. change (2 ^ 23) with 8388608 in *. change (2 ^ 24) with 16777216. destruct s; [|lia]. unfold up. rewrite Z.opp_involutive. lia.
    - apply rg_in_false with (le := true) (c := 0x4afffffe); auto; [apply dir_up|change (f_inf 32) with 0x7f800000; lia|]. intros [H|[_ H]]; [lia|discriminate].
  Qed.
  Lemma trunc_lane x : 0 <= x < 2 ^ 32 -> rounds_to to_zero 32 (z x) (z (trunc_l x)).
  Proof.
    intros Hx. unfold trunc_l. destruct (rg_in b false 0x4b000000 x) eqn:ER.
    - apply rg_parts in ER as (s & m & Ex & Es & Hm & Hv & P0 & P1 & PI & EV & HF & Hz & Q1 & Q2); auto; try lia.
      assert (EN : sgn 32 (cvt A x) = to_zero (f_val 32 x) one).
      { change (to_zero (f_val 32 x) one) with (f_int 32 x). rewrite Ex, cvt_sm, f_int_sm by lia. rewrite sgn_wrap. apply sgn_id; [lia|]. change (2 ^ 23) with 8388608 in *. change (2 ^ (32 - 1)) with 2147483648. destruct s; lia. }
      apply z_rounds; auto. rewrite EN. change (to_zero (f_val 32 x) one) with (f_int 32 x). rewrite Ex, f_int_sm by lia. change (2 ^ 23) with 8388608 in *. change (2 ^ 24) with 16777216. destruct s; lia.
    - apply rg_in_false with (le := false) (c := 0x4b000000); auto; [apply dir_zero|change (f_inf 32) with 0x7f800000; lia|]. intros [H|[H _]]; lia.
  Qed.
End S.
