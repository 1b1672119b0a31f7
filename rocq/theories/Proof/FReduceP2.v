(** Reductions of floats: registers *)
From Verif Require Import Proof.FloatsP3 Proof.FArithP Proof.FMinMaxP Proof.PermuteP Proof.MoveP Proof.ExtractP2 Proof.ReduceP Proof.SplitP Spec.FloatReduce Proof.FReduceP.
From Verif Require Export Model.FReduce.
From Coq Require Import Lia Permutation.

Section O.
  Variables (A : arch) (fp : Z) (o : rop).
  Hypotheses (HV : valid_arch A = true) (Hfp : fp mod 16 = 0).
  Notation comb d := (combined (step A o d)).
  Lemma perm2_lane w b k : (w = 32 \/ w = 64) -> lane w 0 (lsh w 128 2 (p_permute2 1 k) [b]) = lane w 1 b.
  Proof. intros [-> | ->]; replace 0 with (2 * 0 + 0) at 1 by lia; rewrite lane_lsh by (try reflexivity; split; vm_compute; try discriminate; reflexivity); reflexivity. Qed.
  Lemma move_lane b i k : 0 < k -> 0 <= i -> i + k < 4 -> lane 32 i (lsh 32 128 4 (p_move_l 4 k) [b]) = lane 32 (i + k) b.
  Proof.
    intros Hk Hi H. replace i with (4 * 0 + i) at 1 by lia. rewrite lane_lsh; [|reflexivity|lia|split; vm_compute; [discriminate|reflexivity]].
    unfold p_move_l. destruct (Z.ltb_spec (i + k) 4); [|lia]. cbn [nth]. replace (4 * 0 + (i + k)) with (i + k) by lia. reflexivity.
  Qed.
  Lemma lane64 i j a : 0 <= i -> 0 <= j < 2 -> lane 32 j (lane 64 i a) = lane 32 (2 * i + j) a.
  Proof. intros Hi Hj. change 64 with (32 * 2). rewrite lane_lane by lia. f_equal. lia. Qed.
  Lemma movehl_lane a b i : 0 <= i < 2 -> lane 32 i (mm_movehl a b) = lane 32 (2 + i) b.
  Proof.
    intros Hi. replace i with (2 * 0 + i) at 1 by lia. rewrite <- lane64 by lia. unfold mm_movehl. rewrite lane_pack; [|reflexivity|split; vm_compute; discriminate || reflexivity].
    cbn [Z.eqb]. rewrite wrap_small by (apply lane_range; lia). rewrite lane64 by lia. f_equal.
  Qed.
  Lemma red_f32_ok a : reg 128 a -> exists r, red_f32 A fp o a = Ok r /\ comb false (elems 32 (nl 32 128) a) r.
  Proof.
    intros Ha. unfold red_f32. destruct (r_op_ok A o HV false R128 eq_refl) as (F & EF & GF). change (fw false) with 32 in EF. cbn [rbits] in EF.
    pose proof (fun i x y Hi => lane_good A o false 128 F i x y eq_refl Hi GF) as LF. change (fw false) with 32 in LF. change (128 / 32) with 4 in LF.
    pose proof (fun i x => lane_inr false i x) as LI. change (fw false) with 32 in LI.
    destruct (use_null A || use_neon_no_flt_sp A) eqn:E1.
    { apply (null_ok A o false). unfold ftz. revert E1. unfold use_neon_no_flt_sp. fam HV; rw_flags; cbn [orb andb negb]; intros HH; auto; try discriminate HH. destruct (use_neon_flt_sp A); [discriminate HH|reflexivity]. }
    rewrite elems4.
    destruct (is_add o && use_sse3 A) eqn:E2.
    { apply andb_prop in E2 as [E2 E3]. assert (o = RAdd) as Eo by (destruct o; auto; discriminate E2).
      assert (HZ : ftz A false = false). { apply ftz_x86; auto. destruct (use_sse2 A) eqn:E; auto. vimp HV. }
      eexists. split; [reflexivity|]. pose proof (fun i x y Hi => hadd32 A o i x y Hi HZ Eo) as HH.
      pose proof (HH 0 a a ltac:(lia)) as H0. pose proof (HH 1 a a ltac:(lia)) as H1. pose proof (HH 0 (mm_hadd_f 32 a a) (mm_hadd_f 32 a a) ltac:(lia)) as H2.
      eapply comb_pairs; [exact H0|exact H1|exact H2]. }
    destruct (use_sse2 A) eqn:E4.
    { rewrite EF. cbn [bind]. set (b := v2 32 128 F a (mm_movehl a a)). assert (Hb : reg 128 b) by (apply v2_reg; reflexivity).
      rewrite i_permute2_ok; [|auto|reflexivity|discriminate|lia|destruct o; lia|exact Hb]. cbn [bind eb rbits]. rewrite EF. cbn [bind].
      eexists. split; [reflexivity|]. rewrite LF by lia. rewrite perm2_lane by auto. unfold b. rewrite !LF, !movehl_lane by lia. change (2 + 0) with 2. change (2 + 1) with 3.
      eapply comb_cross; apply (step_F A o false); auto; apply (F_inr A o false); auto. }
    destruct (is_mm o && use_neon64 A) eqn:E5.
    { apply andb_prop in E5 as [E5 E6]. assert (HZ : ftz A false = false). { unfold ftz. unfold use_neon64 in E6. apply andb_prop in E6 as [E6 E7]. rewrite E7. fam HV; rw_flags; cbn [negb andb orb]; rewrite ?andb_false_r; auto; fcontra. }
      eexists. split; [reflexivity|]. unfold vminnmv. pose proof (minnm_good A o false HZ E5) as G. change (fw false) with 32 in G.
      eapply comb_pairs; apply (step_F A o false); auto; apply (F_inr A o false); auto. }
    destruct (use_neon_flt_sp A) eqn:E7.
    { assert (HB : use_altivec A = false) by (destruct (use_altivec A) eqn:E; auto; vimp HV).
      pose proof (neon_good A o HB) as G. pose proof (fun i x y Hi => lane_good A o false 64 (r_neon A o 32) i x y eq_refl Hi G) as LN. change (fw false) with 32 in LN. change (64 / 32) with 2 in LN.
      destruct (is_mul o).
      - eexists. split; [reflexivity|]. rewrite LN by lia. rewrite lane_pack; [|reflexivity|split; vm_compute; discriminate || reflexivity]. rewrite wrap_small by apply LI. change (1 - 0) with 1.
        rewrite !LN by lia. rewrite !lane64 by lia. change (2 * 0 + 0) with 0. change (2 * 0 + 1) with 1. change (2 * 1 + 0) with 2. change (2 * 1 + 1) with 3.
        eapply comb_cross; apply (step_F A o false); auto; apply (F_inr A o false); auto.
      - eexists. split; [reflexivity|]. unfold vp_f32.
        assert (LP : forall i x y, 0 <= i < 2 -> lane 32 i (pack 32 64 (fun i => let x := if i =? 0 then x else y in r_neon A o 32 (lane 32 0 x) (lane 32 1 x))) = r_neon A o 32 (lane 32 0 (if i =? 0 then x else y)) (lane 32 1 (if i =? 0 then x else y))).
        { intros i x y Hi. rewrite lane_pack; [|reflexivity|exact Hi]. cbv zeta. apply wrap_small. apply (F_inr A o false); auto. }
        rewrite LP by lia. change (0 =? 0) with true. cbv iota. rewrite !LP by lia. change (0 =? 0) with true. change (1 =? 0) with false. cbv iota. rewrite !lane64 by lia. change (2 * 0 + 0) with 0. change (2 * 0 + 1) with 1. change (2 * 1 + 0) with 2. change (2 * 1 + 1) with 3.
        eapply comb_pairs; apply (step_F A o false); auto; apply (F_inr A o false); auto. }
    assert (E8 : use_altivec A || use_msa A = true).
    { revert E1 E4 E7. unfold use_neon_no_flt_sp. fam HV; rw_flags; cbn [orb andb negb]; intros F1 F2 F3; auto; try discriminate F1; try discriminate F2; try fcontra. rewrite F3 in F1. discriminate F1. }
    rewrite E8. cbn [halve].
    rewrite (i_move_l_ok A F32 R128 1 a HV eq_refl Ha) by (reflexivity || split; vm_compute; discriminate || reflexivity). cbn [bind eb rbits]. rewrite EF. cbn [bind].
    set (b := v2 32 128 F a _). assert (Hb : reg 128 b) by (apply v2_reg; reflexivity).
    rewrite (i_move_l_ok A F32 R128 2 b HV eq_refl Hb) by (reflexivity || split; vm_compute; discriminate || reflexivity). cbn [bind eb rbits]. rewrite EF. cbn [bind].
    rewrite (i_extract_ok A fp HV R128 Hfp false F32 0) by (first [reflexivity | apply v2_reg; reflexivity | split; vm_compute; discriminate || reflexivity | intros; discriminate]).
    eexists. split; [reflexivity|]. unfold value. cbn [eb]. rewrite LF by lia. change (en F32) with 4. rewrite move_lane by lia. change (0 + 2) with 2. unfold b. rewrite !LF by lia. change (en F32) with 4. rewrite !move_lane by lia. change (0 + 1) with 1. change (2 + 1) with 3.
    eapply comb_pairs; apply (step_F A o false); auto; apply (F_inr A o false); auto.
  Qed.
  Lemma red_f64_ok a : reg 128 a -> exists r, red_f64 A fp o a = Ok r /\ comb true (elems 64 (nl 64 128) a) r.
  Proof.
    intros Ha. unfold red_f64. destruct (r_op_ok A o HV true R128 eq_refl) as (F & EF & GF). change (fw true) with 64 in EF. cbn [rbits] in EF.
    pose proof (fun i x y Hi => lane_good A o true 128 F i x y eq_refl Hi GF) as LF. change (fw true) with 64 in LF. change (128 / 64) with 2 in LF.
    pose proof (fun i x => lane_inr true i x) as LI. change (fw true) with 64 in LI.
    assert (HZ : ftz A true = false) by reflexivity.
    assert (HP : forall k, 0 <= k < 2 -> exists b, (let* p := i_permute2 A F64 R128 1 k a in r_op A o true R128 a p) = Ok b /\ reg 128 b /\ comb true (elems 64 (nl 64 128) a) (lane 64 0 b)).
    { intros k Hk. rewrite i_permute2_ok by (auto; first [reflexivity | discriminate | lia]). cbn [bind eb rbits]. rewrite EF. eexists. split; [reflexivity|]. split; [apply v2_reg; reflexivity|].
      rewrite elems2, LF, perm2_lane by (auto; lia). apply comb2. apply (step_F A o true); auto. }
    cbv zeta.
    destruct (is_add o && use_sse3 A) eqn:E2.
    { apply andb_prop in E2 as [E2 E3]. assert (o = RAdd) as Eo by (destruct o; auto; discriminate E2). eexists. split; [reflexivity|]. rewrite elems2. apply comb2.
      exact (hadd64 A o 0 a a ltac:(lia) HZ Eo). }
    destruct (use_sse2 A) eqn:E4.
    { destruct (HP (if is_mul o then 0 else 1)) as (b & E & Hb & C); [destruct (is_mul o); lia|]. rewrite E. cbn [bind]. eauto. }
    destruct (use_neon64 A) eqn:E5.
    { eexists. split; [reflexivity|]. rewrite elems2. apply comb2. destruct (is_mm o) eqn:EM.
      - apply (step_F A o true); auto. apply (minnm_good A o true HZ EM).
      - apply (step_F A o true); auto. apply (scalar_good A o true HZ). }
    destruct (use_vsx206 A || use_msa A) eqn:E6.
    { destruct (HP 1 ltac:(lia)) as (b & E & Hb & C). rewrite E. cbn [bind].
      rewrite (i_extract_ok A fp HV R128 Hfp false F64 0) by (first [reflexivity | exact Hb | split; vm_compute; discriminate || reflexivity | intros; discriminate]). eauto. }
    assert (use_null A || use_neon32 A || use_altivec A = true) as ->; [|apply (null_ok A o true a HZ)].
    revert E4 E5 E6. unfold use_neon64, use_neon32. fam HV; rw_flags; cbn [orb andb negb]; intros F1 F2 F3; auto; try discriminate F1; try discriminate F3; try fcontra.
    - rewrite F2. reflexivity.
  Qed.
  Lemma red_f128_ok d a : reg 128 a -> exists r, red_f128 A fp o d a = Ok r /\ comb d (elems (fw d) (nl (fw d) 128) a) r.
  Proof. intros Ha. destruct d; [apply red_f64_ok|apply red_f32_ok]; auto. Qed.
  Lemma zip_elems d R F a b : wok (fw d) R = true -> good A o d F ->
    Forall2 (fun p q => step A o d (fst p) (snd p) q) (combine (elems (fw d) (nl (fw d) R) a) (elems (fw d) (nl (fw d) R) b)) (elems (fw d) (nl (fw d) R) (v2 (fw d) R F a b)).
  Proof.
    intros HW HG. unfold elems. assert (HI : forall i, In i (seq 0 (nl (fw d) R)) -> 0 <= Z.of_nat i < R / fw d).
    { intros i Hi. apply in_seq in Hi. unfold nl in Hi. assert (0 <= R / fw d) by (destruct (wok_spec _ _ HW) as (H1 & H2 & _); apply Z.div_pos; lia). lia. }
    revert HI. generalize (seq 0 (nl (fw d) R)). intros l HI. induction l as [|i l IH]; cbn [map combine]; constructor.
    - cbn [fst snd]. rewrite (lane_good A o) by (auto; apply HI; left; reflexivity). apply (step_F A o d); auto using lane_inr.
    - apply IH. intros j Hj. apply HI. right. exact Hj.
  Qed.
  Lemma comb_v2 d R F a b tl r : wok (fw d) R = true -> good A o d F ->
    comb d (elems (fw d) (nl (fw d) R) (v2 (fw d) R F a b) ++ tl) r ->
    comb d (elems (fw d) (nl (fw d) R) a ++ elems (fw d) (nl (fw d) R) b ++ tl) r.
  Proof. intros HW HG. apply comb_zip; [apply zip_elems; auto|]. unfold elems. rewrite !map_length. reflexivity. Qed.
  Lemma red_f256_ok d a : use_avx A = true -> reg 256 a -> exists r, red_f256 A fp o d a = Ok r /\ comb d (elems (fw d) (nl (fw d) 256) a) r.
  Proof.
    intros HX Ha. unfold red_f256, mm_extract128. assert (HW : wok (fw d) 128 = true) by (destruct d; reflexivity).
    change 256 with (2 * 128) at 1. rewrite elems_halves by auto. set (al := lane 128 0 a). set (ah := lane 128 1 a).
    destruct (is_add o) eqn:E.
    - assert (o = RAdd) as Eo by (destruct o; auto; discriminate E). assert (HZ : ftz A d = false) by (apply ftz_x86; auto; apply avx_sse; auto).
      eexists. split; [reflexivity|]. cbv zeta. destruct d; change (fw true) with 64 in *; change (fw false) with 32 in *.
      + rewrite !elems2. cbn [app]. pose proof (hadd64 A o 0 al ah ltac:(lia) HZ Eo) as H0. pose proof (hadd64 A o 1 al ah ltac:(lia) HZ Eo) as H1.
        pose proof (hadd64 A o 0 (mm_hadd_f 64 al ah) (mm_hadd_f 64 al ah) ltac:(lia) HZ Eo) as H2. eapply comb_pairs; [exact H0|exact H1|exact H2].
      + rewrite !elems4. set (b := mm_hadd_f 32 al ah). set (c := mm_hadd_f 32 b b).
        pose proof (fun i x y Hi => hadd32 A o i x y Hi HZ Eo) as HH.
        pose proof (HH 0 al ah ltac:(lia)) as H0. pose proof (HH 1 al ah ltac:(lia)) as H1. pose proof (HH 2 al ah ltac:(lia)) as H2. pose proof (HH 3 al ah ltac:(lia)) as H3.
        pose proof (HH 0 b b ltac:(lia)) as H4. pose proof (HH 1 b b ltac:(lia)) as H5. pose proof (HH 0 c c ltac:(lia)) as H6.
        apply (c_step _ _ _ (lane 32 0 c) (lane 32 1 c)); [eapply comb_pairs; [exact H0|exact H1|exact H4]|eapply comb_pairs; [exact H2|exact H3|exact H5]|exact H6].
    - destruct (r_op_ok A o HV d R128 eq_refl) as (F & EF & GF). rewrite EF. cbn [bind rbits].
      destruct (red_f128_ok d (v2 (fw d) 128 F al ah)) as (r & Er & C); [apply v2_reg; auto|]. exists r. split; auto.
      rewrite <- (app_nil_r (elems _ _ ah)). apply (comb_v2 d 128 F); auto. rewrite app_nil_r. exact C.
  Qed.
  Lemma red_f1_ok d s a : avail_flt A s = true -> reg (rbits s) a -> exists r, red_f1 A fp o d s a = Ok r /\ comb d (elems (fw d) (nl (fw d) (rbits s)) a) r.
  Proof.
    intros HA Ha. unfold red_f1. apply (fl_sizes_P A s (fun X => exists r, X = Ok r /\ comb d _ r)); auto.
    - intros ->. apply red_f128_ok; auto.
    - intros -> HX. apply red_f256_ok; auto.
    - intros -> HX. cbn [rbits] in *. unfold red_f512, mm_extract256. assert (HX2 : use_avx A = true) by (apply avx512_avx; auto).
      destruct (r_op_ok A o HV d R256 HX2) as (F & EF & GF). rewrite EF. cbn [bind rbits]. assert (HW : wok (fw d) 256 = true) by (destruct d; reflexivity).
      destruct (red_f256_ok d (v2 (fw d) 256 F (lane 256 0 a) (lane 256 1 a)) HX2) as (r & Er & C); [apply v2_reg; auto|]. exists r. split; auto.
      change 512 with (2 * 256). rewrite elems_halves by auto. rewrite <- (app_nil_r (elems _ _ (lane 256 1 a))). apply (comb_v2 d 256 F); auto. rewrite app_nil_r. exact C.
  Qed.
  Theorem reduce_f_ok d s : avail_flt A s = true -> reduces (fw d) s (reduce_f A fp o d s) (comb d).
  Proof.
    intros HA va Hva Hne. destruct va as [|a va]; [contradiction|]. apply wfv_cons in Hva as [Ha Hva]. unfold reduce_f, red_multi. rewrite lanes_cons.
    destruct (r_op_ok A o HV d s HA) as (F & EF & GF). clear Hne. revert a Ha. induction va as [|b va IH]; intros a Ha; cbn [foldv].
    - cbn [bind]. unfold lanes. cbn [flat_map]. rewrite app_nil_r. apply red_f1_ok; auto.
    - apply wfv_cons in Hva as [Hb Hva]. rewrite EF. cbn [bind]. destruct (IH Hva (v2 (fw d) (rbits s) F a b)) as (r & E & C); [apply v2_reg, fwok|].
      exists r. split; auto. rewrite lanes_cons. apply (comb_v2 d (rbits s) F); auto.
  Qed.
End O.
