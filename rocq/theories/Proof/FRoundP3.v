(** floor, ceil, trunc of float32 by conversion to integers: registers *)
From Verif Require Import Proof.FloatsP3 Proof.FloatRoundP Proof.FArithP Proof.FConvP Proof.FConvP4 Proof.FRoundP Proof.FRoundP2 Proof.ShiftP Proof.BitwiseP Proof.ArithP Proof.MaskP.
From Verif Require Export Model.FRound.
From Coq Require Import Lia.

Section R.
  Variable A : arch.
  Hypothesis HV : valid_arch A = true.
  Hypothesis HS : use_null A || use_neon_no_flt_sp A = false.
  Notation b := (ftz A false).
  Notation fc c := (fconst false R128 c).
  Lemma lane_fc c i : 0 <= i < 4 -> 0 <= c < 2 ^ 32 -> lane 32 i (fc c) = c.
  Proof. intros Hi Hc. unfold fconst. rewrite lane_splat; [apply wrap_small; exact Hc|reflexivity|exact Hi]. Qed.
  Lemma mask_stage (le : bool) c a : 0x00800000 <= c < f_inf 32 -> reg 128 a ->
    exists ba mr mn m, i_fabs A false R128 a = Ok ba /\
      (if le then f_cmp_le A false R128 ba (fc c) else f_cmp_lt A false R128 ba (fc c)) = Ok mr /\
      f_cmp_gt A false R128 ba (fc 0) = Ok mn /\ f_bit_and_mm A false R128 mr mn = Ok m /\
      frel A false R128 (fun i => rg_in b le c (lane 32 i a)) m.
  Proof.
    intros Hc Ha. rewrite (i_fabs_ok A false R128 HV eq_refl a Ha). change (fw false) with 32. set (ba := v1 32 (rbits R128) (f_mag 32) a).
    assert (HL : forall i, 0 <= i < 4 -> lane 32 i ba = f_mag 32 (lane 32 i a)).
    { intros i Hi. unfold ba. rewrite lane_v1; [|reflexivity|exact Hi]. apply wrap_small. pose proof (f_mag_range false (lane 32 i a)) as H. change (fw false) with 32 in H. change (2 ^ (32 - 1)) with (2 ^ 31) in H. pw. lia. }
    assert (HC : 0 <= c < 2 ^ 32) by (change (f_inf 32) with 0x7f800000 in Hc; pw; lia).
    assert (ZC : fz b 32 c = c).
    { unfold fz. destruct b; auto. unfold f_flush. assert (f_denormal 32 c = false) as ->; auto. unfold f_denormal.
      destruct (val_sm false false c ltac:(change (fw false) with 32; lia)) as (_ & Mc & _). change (fw false) with 32 in Mc. cbn [f_sign] in Mc. rewrite Z.add_0_l in Mc. rewrite Mc.
      change (2 ^ fmant 32) with 0x00800000. destruct (Z.ltb_spec c 0x00800000); [lia|apply andb_false_r]. }
    assert (Z0 : fz b 32 0 = 0) by (destruct b; reflexivity).
    assert (H1 : Rok (frel A false R128 (fun i => if le then f_le 32 (fz b 32 (f_mag 32 (lane 32 i a))) c else f_lt 32 (fz b 32 (f_mag 32 (lane 32 i a))) c))
       (if le then f_cmp_le A false R128 ba (fc c) else f_cmp_lt A false R128 ba (fc c))).
    { destruct le; (eapply Rfrel_ext; [|apply fcmp_d_ok; [exact HV|reflexivity|reflexivity]]); intros i Hi; change (rbits R128 / fw false) with 4 in Hi; cbv beta; change (fw false) with 32;
      rewrite HL, lane_fc, ZC by auto; reflexivity. }
    assert (H2 : Rok (frel A false R128 (fun i => f_lt 32 0 (fz b 32 (f_mag 32 (lane 32 i a))))) (f_cmp_gt A false R128 ba (fc 0))).
    { eapply Rfrel_ext; [|apply fcmp_d_ok; [exact HV|reflexivity|reflexivity]]. intros i Hi; change (rbits R128 / fw false) with 4 in Hi; cbv beta; change (fw false) with 32.
      rewrite HL, lane_fc, Z0 by (first [exact Hi | split; reflexivity || discriminate]). reflexivity. }
    apply Rok_ex in H1 as (mr & E1 & H1). apply Rok_ex in H2 as (mn & E2 & H2).
    pose proof (f_bit_and_mm_ok A false R128 HV eq_refl mr mn _ _ H1 H2) as H3. apply Rok_ex in H3 as (m & E3 & H3).
    exists ba, mr, mn, m. split; auto.
  Qed.
  Lemma cvt_1 a : to_int32_1 A a = Ok (v1 32 128 (cvt A) a).
  Proof.
    unfold to_int32_1. rewrite (i_to_int32_f_ok A HV all_lanes (cvt A)).
    - reflexivity.
    - rewrite HS. discriminate.
    - intros E x _. unfold cvt. rewrite E. reflexivity.
    - intros E x _. unfold cvt. rewrite HS in E. cbn [orb] in E. rewrite E. reflexivity.
    - reflexivity.
    - intros i Hi. reflexivity.
  Qed.
  Lemma flt_1 a : to_float32_1 A a = Ok (v1 32 128 (fun x => f_of_int 32 (sgn 32 x)) a).
  Proof. unfold to_float32_1. apply i_to_float32_i_1; auto. Qed.
  Lemma blend_stage f a m p : reg 128 f -> reg 128 a -> frel A false R128 p m ->
    f_blend_m A false R128 f a m = Ok (pack 32 128 (fun i => if p i then lane 32 i f else lane 32 i a)).
  Proof. intros Hf Ha Hm. unfold f_blend_m. apply (f_sel_m_ok A false R128 HV eq_refl (f_blend A false R128)); auto. intros; apply f_blend_ok; auto. Qed.
  Lemma of_int_r n : 0 <= f_of_int 32 n < 2 ^ 32. Proof. apply (of_int_ran false). Qed.
  Lemma shr31 a : i_shift_r A false W32 R128 a 31 = Ok (v1 32 128 (fun x => x / 2 ^ 31) a).
  Proof. cbn [i_shift_r]. rewrite i_shift_r_ud_ok; [apply f_equal; unfold shr_v, v1; cbn [wb rbits]; apply pack_ext; [reflexivity|]; intros i _; rewrite Z.shiftr_div_pow2 by lia; reflexivity|auto|reflexivity|discriminate|cbn; lia]. Qed.

  Lemma lift_l (f : Z -> Z) g op : (forall a, reg 128 a -> op a = Ok (pack 32 128 (fun i => f (lane 32 i a)))) ->
    (forall x, 0 <= x < 2 ^ 32 -> 0 <= f x < 2 ^ 32) ->
    forall dom, (forall x, 0 <= x < 2 ^ 32 -> dom x = true -> rounds_to g 32 (fz b 32 x) (fz b 32 (f x))) ->
    reg_rel 32 128 dom (fun x r => rounds_to g 32 (fz b 32 x) (fz b 32 r)) op.
  Proof.
    intros HO HR dom HP a Ha Hd. exists (pack 32 128 (fun i => f (lane 32 i a))). split; auto. split; [apply (v1_reg 32 128 f a); reflexivity|].
    intros i Hi. rewrite lane_pack by auto. assert (HL : 0 <= lane 32 i a < 2 ^ 32) by (apply lane_range; lia). rewrite wrap_small by auto. apply HP; auto.
  Qed.
  Lemma trunc_sw_ok a : reg 128 a -> trunc_f32_sw A a = Ok (pack 32 128 (fun i => trunc_l A b (lane 32 i a))).
  Proof.
    intros Ha. unfold trunc_f32_sw. destruct (mask_stage false 0x4b000000 a) as (ba & mr & mn & m & E1 & E2 & E3 & E4 & Hm); [split; discriminate || reflexivity|auto|].
    rewrite E1. cbn [bind]. rewrite E2. cbn [bind]. rewrite E3. cbn [bind]. rewrite E4. cbn [bind]. rewrite cvt_1. cbn [bind]. rewrite flt_1. cbn [bind].
    rewrite (blend_stage _ _ _ _ (v1_reg 32 128 _ _ eq_refl) Ha Hm). apply f_equal. apply pack_ext; [reflexivity|]. intros i Hi. apply f_equal. unfold trunc_l.
    destruct (rg_in b false 0x4b000000 (lane 32 i a)); auto. rewrite !lane_v1 by (reflexivity || exact Hi). rewrite sgn_wrap, (wrap_small 32 (f_of_int _ _)) by apply of_int_r. reflexivity.
  Qed.
  Lemma floor_sw_ok a : reg 128 a -> floor_f32_sw A a = Ok (pack 32 128 (fun i => floor_l A b (lane 32 i a))).
  Proof.
    intros Ha. unfold floor_f32_sw. destruct (mask_stage true 0x4afffffe a) as (ba & mr & mn & m & E1 & E2 & E3 & E4 & Hm); [split; discriminate || reflexivity|auto|].
    rewrite E1. cbn [bind]. rewrite E2. cbn [bind]. rewrite E3. cbn [bind]. rewrite E4. cbn [bind]. rewrite shr31. cbn [bind].
    rewrite i_sub_ok by auto. cbn [bind]. rewrite cvt_1. cbn [bind]. rewrite i_sub_ok by auto. cbn [bind]. rewrite flt_1. cbn [bind].
    rewrite (blend_stage _ _ _ _ (v1_reg 32 128 _ _ eq_refl) Ha Hm). apply f_equal. apply pack_ext; [reflexivity|]. intros i Hi. apply f_equal. unfold floor_l.
    destruct (rg_in b true 0x4afffffe (lane 32 i a)); auto. cbn [wb rbits]. rewrite !lane_v1, !lane_v2, !lane_v1, !lane_v2, !lane_v1 by (reflexivity || exact Hi).
    assert (HL : 0 <= lane 32 i a < 2 ^ 32) by (apply lane_range; lia). destruct (split32 _ HL) as [_ Es].
    rewrite (wrap_small 32 (lane 32 i a / 2 ^ 31)) by (rewrite Es; change (2 ^ 32) with 4294967296; destruct (f_neg 32 _); lia).
    rewrite (wrap_small 32 (f_of_int _ _)) by apply of_int_r. do 2 apply f_equal. unfold wrap. rewrite Zminus_mod_idemp_l. rewrite Z.mod_mod by discriminate. reflexivity.
  Qed.
  Lemma ceil_sw_ok a : reg 128 a -> ceil_f32_sw A a = Ok (pack 32 128 (fun i => ceil_l A b (lane 32 i a))).
  Proof.
    intros Ha. unfold ceil_f32_sw. destruct (mask_stage true 0x4afffffe a) as (ba & mr & mn & m & E1 & E2 & E3 & E4 & Hm); [split; discriminate || reflexivity|auto|].
    rewrite E1. cbn [bind]. rewrite E2. cbn [bind]. rewrite E3. cbn [bind]. rewrite E4. cbn [bind]. rewrite shr31. cbn [bind].
    rewrite i_bit_xor_ok by (auto; first [apply v1_reg; reflexivity | apply splat_reg; reflexivity]). cbn [bind].
    rewrite i_sub_ok by auto. cbn [bind]. rewrite cvt_1. cbn [bind]. rewrite i_add_ok by auto. cbn [bind]. rewrite flt_1. cbn [bind].
    rewrite (blend_stage _ _ _ _ (v1_reg 32 128 _ _ eq_refl) Ha Hm). apply f_equal. apply pack_ext; [reflexivity|]. intros i Hi. apply f_equal. unfold ceil_l. cbv zeta.
    destruct (rg_in b true 0x4afffffe (lane 32 i a)); auto. cbn [wb rbits]. rewrite !lane_v1, !lane_v2, !lane_v1, !lane_v2 by (reflexivity || exact Hi).
    rewrite !lane_lxor, !lane_v1, !lane_splat by (reflexivity || exact Hi || lia).
    assert (HL : 0 <= lane 32 i a < 2 ^ 32) by (apply lane_range; lia). destruct (split32 _ HL) as [_ Es].
    rewrite (wrap_small 32 (lane 32 i a / 2 ^ 31)) by (rewrite Es; change (2 ^ 32) with 4294967296; destruct (f_neg 32 _); lia). change (wrap 32 1) with 1.
    rewrite (wrap_small 32 (f_of_int _ _)) by apply of_int_r. do 2 apply f_equal. unfold wrap. rewrite Zplus_mod_idemp_l. rewrite Z.mod_mod by discriminate. reflexivity.
  Qed.
End R.
