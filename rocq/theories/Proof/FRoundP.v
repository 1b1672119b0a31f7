(** floor, ceil, trunc, lane by lane *)
From Verif Require Import Proof.FloatsP3 Proof.FloatRoundP Proof.FArithP Proof.FConvP Proof.FConvP4.
From Verif Require Export Model.FRound.
From Coq Require Import Lia.

Section K.
  Variable d : bool.
  Notation w := (fw d).
  Notation V := (f_abs_val w).
  Notation one := (2 ^ fulp w).
  (** numbers that are integers already *)
  Lemma keep_ok g x : dir d g -> (f_finite w x = true -> exists j, 0 <= j /\ V (f_mag w x) = j * one) -> rounds_to g w x x.
  Proof.
    intros (G1 & _ & _) H. split; auto. split; auto. intros HF. split; auto. destruct (H HF) as (j & Hj & E).
    assert (Hv : f_val w x = (if f_neg w x then - j else j) * one).
    { unfold f_val. rewrite (V_mag d x), E. destruct (f_neg w x); lia. }
    rewrite Hv, G1. reflexivity.
  Qed.
  Lemma int_not_denormal x n : f_val w x = n * one -> f_flush w x = x.
  Proof.
    intros Hv. unfold f_flush, f_denormal. pose proof (one_pos d) as HO. pose proof (fu_M d) as HM.
    destruct (Z.ltb_spec 0 (f_mag w x)) as [H0|]; [|reflexivity]. destruct (Z.ltb_spec (f_mag w x) (2 ^ fmant w)) as [H1|]; [|reflexivity]. exfalso.
    assert (E : V (f_mag w x) = f_mag w x).
    { unfold f_abs_val. assert (f_mag w (f_mag w x) = f_mag w x) as -> by (unfold f_mag; apply Z.mod_mod; destruct d; discriminate).
      rewrite Z.div_small, Z.mod_small by lia. reflexivity. }
    assert (2 ^ fmant w <= one) by (apply Z.pow_le_mono_r; lia).
    assert (Z.abs (f_val w x) = f_mag w x) by (rewrite abs_val; auto). rewrite Hv in *. rewrite Z.abs_mul, (Z.abs_eq one) in * by lia.
    destruct (Z.eq_dec n 0) as [->|]; [lia|]. assert (1 <= Z.abs n) by lia. nia.
  Qed.
  Lemma of_int_rounds g x n : f_finite w x = true -> Z.abs n <= 2 ^ (fmant w + 1) -> n = g (f_val w x) one -> 
    rounds_to g w x (f_of_int w n) /\ f_flush w (f_of_int w n) = f_of_int w n.
  Proof.
    intros HF Hn E. destruct (of_int_exact d n (Z.abs n) 0) as [H1 H2]; [rewrite Z.pow_0_r; lia|lia|lia|].
    destruct (finite_mag d x HF) as (_ & NN & NI). split; [|apply (int_not_denormal _ n); auto].
    split; [rewrite NN; discriminate|]. split; [rewrite NI; discriminate|]. intros _. split; auto. rewrite H2, <- E. reflexivity.
  Qed.
End K.

Section L.
  Variable b : bool.
  Notation z := (fz b 32).
  Notation V := (f_abs_val 32).
  Lemma fz_flush x : f_flush 32 x = x -> z x = x. Proof. unfold fz. destruct b; auto. Qed.
  Lemma z_rounds g x n : f_finite 32 x = true -> z x = x -> Z.abs n <= 2 ^ 24 -> n = g (f_val 32 x) one -> rounds_to g 32 (z x) (z (f_of_int 32 n)).
  Proof. intros HF Hz Hn E. destruct (of_int_rounds false g x n HF Hn E) as [H1 H2]. rewrite Hz, fz_flush by exact H2. exact H1. Qed.
  Lemma mag_z x : 0 <= x < 2 ^ 32 -> f_mag 32 (z x) = z (f_mag 32 x).
  Proof.
    intros Hx. unfold fz. destruct b; auto. rewrite (f_mag_flush false R128). change (fw false) with 32. unfold f_flush, f_denormal.
    assert (EM : f_mag 32 (f_mag 32 x) = f_mag 32 x) by (unfold f_mag; apply Z.mod_mod; discriminate). rewrite EM.
    destruct ((0 <? f_mag 32 x) && (f_mag 32 x <? 2 ^ fmant 32)); auto.
    assert (f_neg 32 (f_mag 32 x) = false) as ->; [|reflexivity]. unfold f_neg. apply Z.leb_gt. pose proof (f_mag_range false x). change (fw false) with 32 in *. lia.
  Qed.
  (** the range test of the code, on the magnitude *)
  Definition rg_in (le : bool) (c x : Z) : bool :=
    (if le then f_le 32 (z (f_mag 32 x)) c else f_lt 32 (z (f_mag 32 x)) c) && f_lt 32 0 (z (f_mag 32 x)).
  Lemma val_zmag x : f_val 32 (z (f_mag 32 x)) = V (z (f_mag 32 x)) /\ (z (f_mag 32 x) = f_mag 32 x \/ z (f_mag 32 x) = 0 /\ b = true).
  Proof.
    pose proof (f_mag_range false x) as Hm. change (fw false) with 32 in Hm. unfold fz. destruct b.
    - unfold f_flush. assert (f_neg 32 (f_mag 32 x) = false) as EN by (unfold f_neg; apply Z.leb_gt; lia).
      destruct (f_denormal 32 (f_mag 32 x)); [rewrite EN; split; [reflexivity|right; auto]|]. split; [unfold f_val; rewrite EN; reflexivity|auto].
    - split; [|auto]. unfold f_val. assert (f_neg 32 (f_mag 32 x) = false) as -> by (unfold f_neg; apply Z.leb_gt; lia). reflexivity.
  Qed.
  Lemma rg_in_true le c x : 0 <= x < 2 ^ 32 -> 0 <= c < f_inf 32 -> rg_in le c x = true ->
    f_finite 32 x = true /\ z x = x /\ 0 < f_mag 32 x /\ (if le then f_mag 32 x <= c else f_mag 32 x < c).
  Proof.
    intros Hx Hc H. unfold rg_in in H. apply andb_prop in H as [H1 H2].
    destruct (val_zmag x) as [Ev Ez]. unfold f_lt at 1 in H2. apply andb_prop in H2 as [HN H2]. apply Z.ltb_lt in H2. change (f_val 32 0) with 0 in H2.
    destruct Ez as [Ez|[Ez _]]; [|rewrite Ez in H2; discriminate H2]. rewrite Ez in *. clear HN.
    assert (EM : f_mag 32 (f_mag 32 x) = f_mag 32 x) by (unfold f_mag; apply Z.mod_mod; discriminate).
    pose proof (f_mag_range false x) as Hm. change (fw false) with 32 in Hm.
    destruct (val_sm false false c ltac:(change (fw false) with 32; lia)) as (Ec & _ & _). change (fw false) with 32 in Ec. cbn [f_sign] in Ec. rewrite Z.add_0_l in Ec.
    assert (HC : f_nan 32 (f_mag 32 x) = false /\ if le then V (f_mag 32 x) <= V c else V (f_mag 32 x) < V c).
    { destruct le; [unfold f_le in H1|unfold f_lt in H1]; apply andb_prop in H1 as [N1 H1]; unfold f_unord in N1; (split; [destruct (f_nan 32 (f_mag 32 x)); [discriminate N1|reflexivity]|]);
      [apply Z.leb_le in H1|apply Z.ltb_lt in H1]; rewrite Ev, Ec in H1; exact H1. }
    destruct HC as [HN HC]. assert (Hle : f_mag 32 x <= f_inf 32) by (unfold f_nan in HN; rewrite EM in HN; apply Z.ltb_ge in HN; exact HN).
    assert (Hm0 : 0 < f_mag 32 x). { destruct (Z.eq_dec (f_mag 32 x) 0) as [E|]; [|lia]. rewrite E in H2. discriminate H2. }
    assert (Hcmp : if le then f_mag 32 x <= c else f_mag 32 x < c).
    { destruct le.
      - destruct (Z.le_gt_cases (f_mag 32 x) c); auto. pose proof (val_mono false c (f_mag 32 x)) as HM. change (fw false) with 32 in HM. lia.
      - destruct (Z.lt_ge_cases (f_mag 32 x) c); auto. destruct (Z.eq_dec c (f_mag 32 x)) as [->|]; [lia|]. pose proof (val_mono false c (f_mag 32 x)) as HM. change (fw false) with 32 in HM. lia. }
    assert (HF : f_finite 32 x = true) by (unfold f_finite; apply Z.ltb_lt; destruct le; lia).
    split; auto. split; [|auto]. unfold fz in *. destruct b; auto. unfold f_flush. unfold f_flush in Ez. destruct (f_denormal 32 x) eqn:ED; auto. exfalso.
    assert (f_denormal 32 (f_mag 32 x) = true) as EDM by (unfold f_denormal in *; rewrite EM; exact ED). rewrite EDM in Ez.
    assert (f_neg 32 (f_mag 32 x) = false) as EN by (unfold f_neg; apply Z.leb_gt; lia). rewrite EN in Ez. cbn [f_sign] in Ez. lia.
  Qed.
  (** lanes left alone: zeros, large numbers, infinities, NaN *)
  Lemma rg_in_false le c x g : dir false g -> 0 <= x < 2 ^ 32 -> 0 < c < f_inf 32 -> rg_in le c x = false ->
    (c < f_mag 32 x \/ f_mag 32 x = c /\ le = false -> 0x4b000000 <= f_mag 32 x) -> rounds_to g 32 (z x) (z x).
  Proof.
    intros HG Hx Hc H Hbig. apply (keep_ok false); auto. change (fw false) with 32. intros HF.
    destruct (finite_mag false (z x) HF) as (Hm & _ & _). change (fw false) with 32 in Hm. rewrite mag_z in * by auto.
    destruct (val_zmag x) as [Ev Ez]. destruct Ez as [Ez|[Ez _]]; rewrite Ez in *; [|exists 0; split; [lia|reflexivity]].
    destruct (Z.eq_dec (f_mag 32 x) 0) as [E0|E0]; [rewrite E0; exists 0; split; [lia|reflexivity]|].
    assert (EM : f_mag 32 (f_mag 32 x) = f_mag 32 x) by (unfold f_mag; apply Z.mod_mod; discriminate).
    assert (NM : f_nan 32 (f_mag 32 x) = false) by (unfold f_nan; rewrite EM; apply Z.ltb_ge; lia).
    destruct (val_sm false false c ltac:(change (fw false) with 32; lia)) as (Ec & Mc & _). change (fw false) with 32 in Ec, Mc. cbn [f_sign] in Ec, Mc. rewrite Z.add_0_l in Ec, Mc.
    assert (NC : f_nan 32 c = false) by (unfold f_nan; rewrite Mc; apply Z.ltb_ge; lia).
    assert (HB : 0x4b000000 <= f_mag 32 x).
    { apply Hbig. unfold rg_in in H. rewrite Ez in H. unfold f_le, f_lt, f_unord in H. rewrite NM, NC in H. change (f_nan 32 0) with false in H. cbn [orb negb andb] in H.
      change (f_val 32 0) with 0 in H. rewrite Ev, Ec in H.
      assert (V0 : 0 < V (f_mag 32 x)). { pose proof (val_mono false 0 (f_mag 32 x)) as HM. change (fw false) with 32 in HM. change (V 0) with 0 in HM. lia. }
      destruct (Z.ltb_spec 0 (V (f_mag 32 x))); [|lia]. rewrite andb_true_r in H.
      destruct (Z.lt_ge_cases c (f_mag 32 x)); auto. destruct (Z.eq_dec (f_mag 32 x) c) as [E|E].
      - destruct le; [|auto]. rewrite E in H. apply Z.leb_gt in H. lia.
      - pose proof (val_mono false (f_mag 32 x) c) as HM. change (fw false) with 32 in HM. destruct le; [apply Z.leb_gt in H|apply Z.ltb_ge in H]; lia. }
    apply (big_multiple false); change (fw false) with 32; [lia|]. change (2 ^ fmant 32 * one) with (V 0x4b000000).
    destruct (Z.eq_dec 0x4b000000 (f_mag 32 x)) as [E|E]; [rewrite <- E; lia|]. pose proof (val_mono false 0x4b000000 (f_mag 32 x)) as HM. change (fw false) with 32 in HM. lia.
  Qed.
End L.
