(** trunc of float64 by masks *)
From Verif Require Import Proof.FloatsP3 Proof.FloatRoundP Proof.FArithP Proof.FConvP Proof.FConvP4 Proof.FRoundP Proof.FRoundP3 Proof.BitwiseP Proof.ArithP Proof.MaskP.
From Verif Require Export Model.FRound.
From Coq Require Import Lia.

Notation X64 := 0x7ff0000000000000.
Notation I64 := 0x3ff0000000000000.
Notation C64 := 0x432ffffffffffffe.
Notation V64 := (f_abs_val 64).
Notation one64 := (2 ^ fulp 64).
Definition clear_e (e : Z) : Z := Z.ldiff (wrap 64 (f_add 64 (e * 2 ^ 52) I64 - 1)) X64.
Definition clear_l (x : Z) : Z := Z.ldiff (wrap 64 (f_add 64 (Z.land (f_mag 64 x) X64) I64 - 1)) X64.
Definition trunc64_l (x : Z) : Z :=
  if f_le 64 (f_mag 64 x) C64 then Z.ldiff (Z.ldiff x (clear_l x)) (if f_lt 64 (f_mag 64 x) I64 then 2 ^ 64 - 1 else 0) else x.
Lemma clear_all : forallb (fun k => clear_e (1023 + Z.of_nat k) =? 2 ^ (52 - Z.of_nat k) - 1) (seq 0 52) = true.
Proof. vm_compute. reflexivity. Qed.
Lemma clear_k k : 0 <= k < 52 -> clear_e (1023 + k) = 2 ^ (52 - k) - 1.
Proof.
  intros Hk. pose proof clear_all as H. rewrite forallb_forall in H. specialize (H (Z.to_nat k)). rewrite in_seq, Z2Nat.id in H by lia. apply Z.eqb_eq, H. lia.
Qed.
Lemma exp_bits m : 0 <= m < 2 ^ 63 -> Z.land m X64 = m / 2 ^ 52 * 2 ^ 52.
Proof.
  intros Hm. rewrite <- Z.shiftr_div_pow2, <- Z.shiftl_mul_pow2 by lia. apply Z.bits_inj'. intros n Hn. rewrite Z.land_spec, Z.shiftl_spec by lia.
  change X64 with (Z.shiftl (Z.ones 11) 52). rewrite Z.shiftl_spec by lia. destruct (Z.lt_ge_cases n 52).
  - rewrite !Z.testbit_neg_r with (n := n - 52) by lia. apply andb_false_r.
  - rewrite Z.shiftr_spec by lia. replace (n - 52 + 52) with n by lia. destruct (Z.lt_ge_cases n 63).
    + rewrite Z.ones_spec_low by lia. apply andb_true_r.
    + rewrite Z.ones_spec_high by lia. rewrite andb_false_r. symmetry. destruct (Z.eq_dec m 0) as [->|]; [apply Z.testbit_0_l|]. apply Z.bits_above_log2; [lia|]. apply Z.log2_lt_pow2; [lia|].
      apply Z.lt_le_trans with (2 ^ 63); [lia|]. apply Z.pow_le_mono_r; lia.
Qed.
Lemma clear_low x j : 0 <= j -> Z.ldiff x (2 ^ j - 1) = x - x mod 2 ^ j.
Proof.
  intros Hj. replace (2 ^ j - 1) with (Z.ones j) by (rewrite Z.ones_equiv; lia). rewrite Z.ldiff_ones_r by lia.
  rewrite Z.shiftr_div_pow2, Z.shiftl_mul_pow2 by lia. pose proof (Z.div_mod x (2 ^ j)) as E. assert (0 < 2 ^ j) by (apply Z.pow_pos_nonneg; lia). lia.
Qed.
Lemma le64 x c : 0 <= c < f_inf 64 -> f_le 64 (f_mag 64 x) c = (f_mag 64 x <=? c).
Proof.
  intros Hc. pose proof (f_mag_range true x) as Hm. change (fw true) with 64 in Hm.
  assert (EM : f_mag 64 (f_mag 64 x) = f_mag 64 x) by (unfold f_mag; apply Z.mod_mod; discriminate).
  destruct (val_sm true false c ltac:(change (fw true) with 64; lia)) as (Ec & Mc & _). change (fw true) with 64 in Ec, Mc. cbn [f_sign] in Ec, Mc. rewrite Z.add_0_l in Ec, Mc.
  assert (NC : f_nan 64 c = false) by (unfold f_nan; rewrite Mc; apply Z.ltb_ge; lia).
  unfold f_le, f_unord. rewrite NC, orb_false_r. destruct (f_nan 64 (f_mag 64 x)) eqn:EN; cbn [negb andb].
  - unfold f_nan in EN. rewrite EM in EN. apply Z.ltb_lt in EN. symmetry. apply Z.leb_gt. lia.
  - unfold f_nan in EN. rewrite EM in EN. apply Z.ltb_ge in EN. rewrite Ec. destruct (val_sm true false (f_mag 64 x) ltac:(change (fw true) with 64; lia)) as (Ex & _ & _). change (fw true) with 64 in Ex. cbn [f_sign] in Ex. rewrite Z.add_0_l in Ex. rewrite Ex.
    destruct (Z.leb_spec (f_mag 64 x) c).
    + apply Z.leb_le. destruct (Z.eq_dec (f_mag 64 x) c) as [->|]; [lia|]. pose proof (val_mono true (f_mag 64 x) c) as HM. change (fw true) with 64 in HM. lia.
    + apply Z.leb_gt. pose proof (val_mono true c (f_mag 64 x)) as HM. change (fw true) with 64 in HM. lia.
Qed.
Lemma lt64 x c : 0 <= c < f_inf 64 -> f_mag 64 x <= f_inf 64 -> f_lt 64 (f_mag 64 x) c = (f_mag 64 x <? c).
Proof.
  intros Hc Hi. pose proof (f_mag_range true x) as Hm. change (fw true) with 64 in Hm.
  assert (EM : f_mag 64 (f_mag 64 x) = f_mag 64 x) by (unfold f_mag; apply Z.mod_mod; discriminate).
  destruct (val_sm true false c ltac:(change (fw true) with 64; lia)) as (Ec & Mc & _). change (fw true) with 64 in Ec, Mc. cbn [f_sign] in Ec, Mc. rewrite Z.add_0_l in Ec, Mc.
  assert (NC : f_nan 64 c = false) by (unfold f_nan; rewrite Mc; apply Z.ltb_ge; lia).
  assert (NX : f_nan 64 (f_mag 64 x) = false) by (unfold f_nan; rewrite EM; apply Z.ltb_ge; lia).
  unfold f_lt, f_unord. rewrite NC, NX. cbn [negb andb orb]. rewrite Ec. destruct (val_sm true false (f_mag 64 x) ltac:(change (fw true) with 64; lia)) as (Ex & _ & _). change (fw true) with 64 in Ex. cbn [f_sign] in Ex. rewrite Z.add_0_l in Ex. rewrite Ex.
  destruct (Z.ltb_spec (f_mag 64 x) c).
  - apply Z.ltb_lt. pose proof (val_mono true (f_mag 64 x) c) as HM. change (fw true) with 64 in HM. lia.
  - apply Z.ltb_ge. destruct (Z.eq_dec (f_mag 64 x) c) as [->|]; [lia|]. pose proof (val_mono true c (f_mag 64 x)) as HM. change (fw true) with 64 in HM. lia.
Qed.
Lemma V64_parts e f : 0 < e < 2047 -> 0 <= f < 2 ^ 52 -> V64 (e * 2 ^ 52 + f) = (2 ^ 52 + f) * 2 ^ (e - 1).
Proof.
  intros He Hf. unfold f_abs_val. change (fmant 64) with 52.
  assert (f_mag 64 (e * 2 ^ 52 + f) = e * 2 ^ 52 + f) as ->. { unfold f_mag. apply Z.mod_small. change (2 ^ (64 - 1)) with (2048 * 2 ^ 52). lia. }
  rewrite Z.div_add_l, Z.div_small, Z.add_0_r by (auto; discriminate). rewrite (Z.add_comm (e * _)), Z.mod_add, Z.mod_small by (auto; discriminate).
  destruct (Z.eqb_spec e 0); [lia|]. reflexivity.
Qed.
Lemma trunc64_lane x : 0 <= x < 2 ^ 64 -> f_mag 64 x <> 0x432fffffffffffff -> rounds_to to_zero 64 x (trunc64_l x).
Proof.
  intros Hx Hn. unfold trunc64_l. rewrite le64 by (split; discriminate || reflexivity). pose proof (f_mag_range true x) as Hm. change (fw true) with 64 in Hm.
  pose proof (one_pos true) as HO. change (fw true) with 64 in HO.
  destruct (Z.leb_spec (f_mag 64 x) C64) as [Hle|Hgt].
  - rewrite lt64; [|split; discriminate || reflexivity|change (f_inf 64) with X64; lia].
    assert (HF : f_finite 64 x = true) by (unfold f_finite; apply Z.ltb_lt; change (f_inf 64) with X64; lia).
    destruct (finite_mag true x HF) as (_ & NN & NI). change (fw true) with 64 in NN, NI. split; [rewrite NN; discriminate|]. split; [rewrite NI; discriminate|]. intros _.
    pose proof (f_split true x Hx) as ES. change (fw true) with 64 in ES.
    destruct (val_sm true (f_neg 64 x) (f_mag 64 x)) as (EV & _ & _); [change (fw true) with 64; change (f_inf 64) with X64; lia|]. change (fw true) with 64 in EV. rewrite <- ES in EV.
    pose proof (abs_val_nonneg true (f_mag 64 x)) as P1. change (fw true) with 64 in P1.
    assert (EQ : to_zero (f_val 64 x) one64 = if f_neg 64 x then - (V64 (f_mag 64 x) / one64) else V64 (f_mag 64 x) / one64).
    { unfold to_zero. rewrite EV. destruct (f_neg 64 x); [rewrite Z.quot_opp_l by lia|]; rewrite Z.quot_div_nonneg by lia; reflexivity. }
    rewrite EQ. destruct (Z.ltb_spec (f_mag 64 x) I64) as [Hs|Hb].
    + assert (Z.ldiff (Z.ldiff x (clear_l x)) (2 ^ 64 - 1) = 0) as ->.
      { rewrite clear_low by lia. rewrite Z.mod_small; [lia|]. split; [apply Z.ldiff_nonneg; lia|]. 
        apply Z.le_lt_trans with x; [|lia]. assert (0 <= Z.ldiff x (clear_l x)) by (apply Z.ldiff_nonneg; lia).
        apply Z.ldiff_le; [lia|]. apply Z.bits_inj'. intros n Hnn. rewrite !Z.ldiff_spec, Z.bits_0. destruct (Z.testbit x n), (Z.testbit _ n); reflexivity. }
      split; [reflexivity|]. change (f_val 64 0) with 0. assert (V64 (f_mag 64 x) / one64 = 0) as ->; [|destruct (f_neg 64 x); reflexivity].
      apply Z.div_small. split; auto. change one64 with (V64 I64). pose proof (val_mono true (f_mag 64 x) I64) as HM. change (fw true) with 64 in HM. apply HM; try lia. change (f_inf 64) with X64. lia.
    + rewrite Z.ldiff_0_r. set (m := f_mag 64 x) in *. 
      set (e := m / 2 ^ 52). set (f := m mod 2 ^ 52). assert (Em : m = e * 2 ^ 52 + f) by (unfold e, f; rewrite Z.mul_comm; apply Z.div_mod; discriminate).
      assert (Hf : 0 <= f < 2 ^ 52) by (apply Z.mod_pos_bound; reflexivity).
      assert (He : 1023 <= e <= 1074). { change C64 with (1074 * 2 ^ 52 + (2 ^ 52 - 2)) in Hle. change I64 with (1023 * 2 ^ 52) in Hb. change (2 ^ 52) with 4503599627370496 in *. lia. }
      assert (EC : clear_l x = 2 ^ (1075 - e) - 1).
      { unfold clear_l. fold m. rewrite exp_bits by (change (2 ^ 63) with (2 ^ (64 - 1)); lia). fold e. change (clear_e e = 2 ^ (1075 - e) - 1).
        replace e with (1023 + (e - 1023)) at 1 by lia. rewrite clear_k by lia. f_equal. f_equal. lia. }
      rewrite EC. set (j := 1075 - e). assert (Hj : 1 <= j <= 52) by lia. rewrite clear_low by lia.
      assert (HP : 0 < 2 ^ j) by (apply Z.pow_pos_nonneg; lia).
      assert (D52 : 2 ^ 52 = 2 ^ (52 - j) * 2 ^ j) by (rewrite <- Z.pow_add_r by lia; f_equal; lia).
      assert (EX : x mod 2 ^ j = f mod 2 ^ j).
      { rewrite ES. fold m. rewrite Em. unfold f_sign. change (2 ^ (64 - 1)) with (2048 * 2 ^ 52). rewrite D52.
        destruct (f_neg 64 x); [replace (2048 * (2 ^ (52 - j) * 2 ^ j) + (e * (2 ^ (52 - j) * 2 ^ j) + f)) with (f + (2048 + e) * 2 ^ (52 - j) * 2 ^ j) by ring
          |replace (0 + (e * (2 ^ (52 - j) * 2 ^ j) + f)) with (f + e * 2 ^ (52 - j) * 2 ^ j) by ring]; apply Z.mod_add; lia. }
      rewrite EX. pose proof (Z.mod_pos_bound f (2 ^ j) HP) as Hr. pose proof (Z.mod_le f (2 ^ j) ltac:(lia) HP) as Hr2.
      set (f' := f - f mod 2 ^ j). assert (Hf' : 0 <= f' < 2 ^ 52) by (unfold f'; lia).
      assert (EXX : x - f mod 2 ^ j = f_sign 64 (f_neg 64 x) + (e * 2 ^ 52 + f')) by (unfold f'; lia). rewrite EXX.
      assert (Hm' : 0 <= e * 2 ^ 52 + f' < f_inf 64) by (change (f_inf 64) with (2047 * 2 ^ 52); change (2 ^ 52) with 4503599627370496 in *; lia).
      destruct (finite_sm true (f_neg 64 x) _ Hm') as [FF _]. change (fw true) with 64 in FF. split; auto.
      destruct (val_sm true (f_neg 64 x) (e * 2 ^ 52 + f')) as (EV' & _ & _); [change (fw true) with 64; lia|]. change (fw true) with 64 in EV'. rewrite EV'.
      assert (EE : V64 (e * 2 ^ 52 + f') = V64 m / one64 * one64).
      { rewrite Em, !V64_parts by lia. change (fulp 64) with 1074. replace (2 ^ 1074) with (2 ^ j * 2 ^ (e - 1)) by (rewrite <- Z.pow_add_r by lia; f_equal; unfold j; lia).
        assert (0 < 2 ^ (e - 1)) by (apply Z.pow_pos_nonneg; lia). rewrite Z.div_mul_cancel_r by lia.
        assert (ED : 2 ^ 52 + f' = (2 ^ 52 + f) / 2 ^ j * 2 ^ j).
        { pose proof (Z.div_mod (2 ^ 52 + f) (2 ^ j) ltac:(lia)) as DM. assert ((2 ^ 52 + f) mod 2 ^ j = f mod 2 ^ j) as DX by (rewrite D52, Z.add_comm; apply Z.mod_add; lia). rewrite DX in DM. unfold f'. lia. }
        rewrite ED. ring. }
      rewrite EE. destruct (f_neg 64 x); ring.
  - apply (keep_ok true); [apply dir_zero|]. change (fw true) with 64. intros HF. destruct (finite_mag true x HF) as (Hm' & _ & _). change (fw true) with 64 in Hm'.
    apply (big_multiple true); change (fw true) with 64; [lia|]. change (2 ^ fmant 64 * one64) with (V64 0x4330000000000000).
    destruct (Z.eq_dec 0x4330000000000000 (f_mag 64 x)) as [E|E]; [rewrite <- E; lia|]. pose proof (val_mono true 0x4330000000000000 (f_mag 64 x)) as HM. change (fw true) with 64 in HM. lia.
Qed.

Section R.
  Variable A : arch.
  Hypothesis HV : valid_arch A = true.
  Lemma lane_fc64 c i : 0 <= i < 2 -> 0 <= c < 2 ^ 64 -> lane 64 i (fc64 c) = c.
  Proof. intros Hi Hc. unfold fc64, fconst. rewrite lane_splat; [apply wrap_small; exact Hc|reflexivity|exact Hi]. Qed.
  Lemma cmp64 p q a c : (forall x y, p 64 x y = q 64 x y) -> 0 <= c < 2 ^ 64 ->
    Rok (frel A true R128 (fun i => p 64 (lane 64 i a) c)) (fcmp_d p q A true R128 a (fc64 c)).
  Proof.
    intros HP Hc. eapply Rfrel_ext; [|apply fcmp_d_ok; [exact HV|reflexivity|exact HP]]. intros i Hi; change (rbits R128 / fw true) with 2 in Hi; cbv beta; change (fw true) with 64.
    rewrite lane_fc64 by auto. reflexivity.
  Qed.
  Lemma trunc64_sw_ok a : reg 128 a -> trunc_f64_sw A a = Ok (pack 64 128 (fun i => trunc64_l (lane 64 i a))).
  Proof.
    intros Ha. unfold trunc_f64_sw. rewrite (i_fabs_ok A true R128 HV eq_refl a Ha). cbn [bind]. change (fw true) with 64. cbn [rbits]. set (ba := v1 64 128 (f_mag 64) a).
    assert (Hba : reg 128 ba) by (apply v1_reg; reflexivity).
    assert (HL : forall i, 0 <= i < 2 -> lane 64 i ba = f_mag 64 (lane 64 i a)).
    { intros i Hi. unfold ba. rewrite lane_v1; [|reflexivity|exact Hi]. apply wrap_small. pose proof (f_mag_range true (lane 64 i a)) as H. change (fw true) with 64 in H. change (2 ^ (64 - 1)) with 0x8000000000000000 in H. change (2 ^ 64) with 0x10000000000000000. lia. }
    assert (K : forall c, reg 128 (fc64 c)) by (intros; apply (fconst_reg true R128)).
    destruct (proj1 (Rok_ex _ _) (cmp64 f_le f_le ba C64 ltac:(reflexivity) ltac:(split; discriminate || reflexivity))) as (mr & E1 & H1).
    unfold f_cmp_le. rewrite E1. cbn [bind].
    destruct (proj1 (Rok_ex _ _) (cmp64 f_lt f_lt ba I64 ltac:(reflexivity) ltac:(split; discriminate || reflexivity))) as (mz & E2 & H2).
    unfold f_cmp_lt. rewrite E2. cbn [bind]. rewrite (unmask_f_ok A true R128 eq_refl mz _ H2). cbn [bind]. cbn [rbits]. change (fw true) with 64.
    unfold clearbits64. rewrite f_bit_and_ok by (auto; apply K). cbn [bind]. unfold i_fadd. rewrite farith_ok by auto. cbn [bind]. change (fw true) with 64. cbn [rbits].
    rewrite i_sub_ok by auto. cbn [bind wb rbits]. rewrite f_bit_andnot_ok by (auto; first [apply K | apply v2_reg; reflexivity]). cbn [bind].
    set (cl := Z.ldiff _ (fc64 X64)).
    assert (Hcl : reg 128 cl) by (apply (ldiff_reg 128); [lia|apply v2_reg; reflexivity]).
    rewrite f_bit_andnot_ok by auto. cbn [bind].
    rewrite f_bit_andnot_ok by (auto; first [apply (ldiff_reg 128); [lia|auto] | apply tfv_reg; reflexivity]). cbn [bind].
    unfold f_blend_m. rewrite (f_sel_m_ok A true R128 HV eq_refl (f_blend A true R128)) with (p := fun i => f_le 64 (lane 64 i ba) C64); [|intros; apply f_blend_ok; auto|do 2 (apply (ldiff_reg 128); [lia|]); auto|auto|auto].
    change (fw true) with 64. cbn [rbits]. apply f_equal. apply pack_ext; [reflexivity|]. intros i Hi. apply f_equal. unfold trunc64_l. rewrite HL by exact Hi.
    destruct (f_le 64 (f_mag 64 (lane 64 i a)) C64); auto. rewrite !lane_ldiff by lia. rewrite lane_tfv by (reflexivity || exact Hi). rewrite HL by exact Hi.
    assert (EC : lane 64 i cl = clear_l (lane 64 i a)).
    { unfold cl. rewrite lane_ldiff by lia. rewrite !lane_v2 by (reflexivity || exact Hi). rewrite lane_land by lia. rewrite !lane_fc64, HL by (exact Hi || split; discriminate || reflexivity).
      unfold clear_l. f_equal. change (ftz A true) with false. cbn [fz].
      unfold wrap. rewrite Zminus_mod_idemp_l. reflexivity. }
    rewrite EC. destruct (f_lt 64 (f_mag 64 (lane 64 i a)) I64); reflexivity.
  Qed.
End R.
