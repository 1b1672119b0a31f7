(** Division and square root by Newton steps (32-bit ARM NEON, AltiVec); min and max as one lane
    function per configuration. *)
From Verif Require Import Proof.FArithP Proof.FMinMaxP Proof.FloatsP Proof.FloatsP3 Proof.FloatRoundP Spec.FUnits Model.FArith Model.FMinMax Model.Program.
From Coq Require Import Lia.

Lemma ieee_ftz' A d : ieee_unit A d = negb (ftz A d).
Proof. unfold ieee_unit, ftz. destruct d, (use_neon_flt_sp A), (use_64 A), (use_altivec A), (use_vsx206 A); reflexivity. Qed.
Lemma ieee_rsqrt' A d : ieee_sqrt A d = negb (by_rsqrt A d).
Proof. unfold ieee_sqrt, by_rsqrt. destruct d, (use_neon_flt_sp A), (use_64 A), (use_altivec A); reflexivity. Qed.
Lemma fbits_fw d : fbits d = fw d. Proof. destruct d; reflexivity. Qed.
Lemma denorm0_fz A d x : denorm0 A d x = fz (ftz A d) (fw d) x.
Proof. unfold denorm0, fz. rewrite ieee_ftz'. destruct (ftz A d), d; reflexivity. Qed.
Lemma ftz_d A d : ftz A d = true -> d = false.
Proof. unfold ftz. destruct d; [discriminate|reflexivity]. Qed.

Section N.
  Variables (est : Z -> Z) (A : arch).
  Hypothesis HV : valid_arch A = true.
  Let HW : wok 32 128 = true := eq_refl.
  Let HA : avail_flt A R128 = true := eq_refl.
  Notation z := (fz (ftz A false) 32).
  Lemma fmul_unit d s a b : avail_flt A s = true -> i_fmul A d s a b = Ok (v2 (fw d) (rbits s) (unit_mul A d) a b).
  Proof.
    intros HA'. rewrite (i_fmul_ok A d s HV HA'). apply f_equal. apply v2_ext; [apply fwok|]. intros x y _ _.
    unfold unit_mul. change (no_mul A d) with (by_madd A d). rewrite !denorm0_fz, fbits_fw. reflexivity.
  Qed.
  Ltac lanes1 := apply pack_ext; [exact HW|]; intros i Hi; rewrite ?lane_v2, ?lane_v1 by (first [exact HW|exact Hi]).
  Lemma rcp_step_ok x b : i_rcp_rh_est A x b = Ok (v2 32 128 (recip_step A) x b).
  Proof.
    unfold i_rcp_rh_est. rewrite (fmul_unit false R128) by reflexivity. apply f_equal. cbn [rbits]. change (fw false) with 32.
    unfold v2 at 1. unfold v2 at 3. unfold v3. apply pack_ext; [exact HW|]. intros i Hi. unfold recip_step, low32. cbv zeta. rewrite !denorm0_fz. change (fw false) with 32.
    destruct (use_altivec A); rewrite lane_v2 by auto; unfold wrap; rewrite Zmod_mod; reflexivity.
  Qed.
  Lemma splat_half i : 0 <= i < 128 / 32 -> lane 32 i (splat 32 128 0x3f000000) = 0x3f000000.
  Proof. intros Hi. assert (i = 0 \/ i = 1 \/ i = 2 \/ i = 3) as C by (change (128 / 32) with 4 in Hi; lia). destruct C as [->|[->|[->| ->]]]; reflexivity. Qed.
  Lemma rsqrt_step_ok x a : i_rsqrt_rh_est A x a = Ok (v2 32 128 (rsqrt_step A) x a).
  Proof.
    unfold i_rsqrt_rh_est. rewrite (fmul_unit false R128 x x) by reflexivity. cbn [rbits bind]. change (fw false) with 32. cbv zeta.
    destruct (use_altivec A) eqn:EA.
    - rewrite (fmul_unit false R128 x) by reflexivity. cbn [bind]. rewrite (fmul_unit false R128) by reflexivity. cbn [rbits]. change (fw false) with 32. apply f_equal.
      unfold v2 at 1. unfold v2 at 4. unfold v3. apply pack_ext; [exact HW|]. intros i Hi.
      rewrite !lane_v2 by auto. rewrite splat_half by auto. unfold rsqrt_step, low32. cbv zeta. rewrite EA, !denorm0_fz. unfold wrap. rewrite Zmod_mod. reflexivity.
    - rewrite (fmul_unit false R128) by reflexivity. cbn [rbits]. change (fw false) with 32. apply f_equal.
      unfold v2 at 1. unfold v2 at 3. unfold v3. apply pack_ext; [exact HW|]. intros i Hi.
      rewrite !lane_v2 by auto. unfold rsqrt_step, low32. cbv zeta. rewrite EA, !denorm0_fz. unfold wrap. rewrite Zmod_mod. reflexivity.
  Qed.
  Lemma div_approx a b :
    (let* x1 := i_rcp_rh_est A (v1 32 128 est b) b in let* x2 := i_rcp_rh_est A x1 b in i_fmul A false R128 a x2)
    = Ok (v2 32 128 (fun x y => unit_mul A false x (recip_step A (recip_step A (low32 (est y)) y) y)) a b).
  Proof.
    rewrite rcp_step_ok. cbn [bind]. rewrite rcp_step_ok. cbn [bind]. rewrite (fmul_unit false R128) by reflexivity. cbn [rbits]. change (fw false) with 32. apply f_equal.
    unfold v2 at 1. unfold v2 at 3. unfold v3. apply pack_ext; [exact HW|]. intros i Hi. rewrite !lane_v2, !lane_v1 by auto.
    unfold wrap. fold (low32 (est (lane 32 i b))). f_equal. f_equal.
    assert (forall x y, recip_step A x y mod 2 ^ 32 = recip_step A x y) as -> by (intros; unfold recip_step, low32; apply Zmod_mod).
    assert (forall x y, recip_step A x y mod 2 ^ 32 = recip_step A x y) as -> by (intros; unfold recip_step, low32; apply Zmod_mod). reflexivity.
  Qed.
  Lemma sqrt_approx a :
    (let* x1 := i_rsqrt_rh_est A (v1 32 128 est a) a in i_fmul A false R128 a x1)
    = Ok (v1 32 128 (fun x => unit_mul A false x (rsqrt_step A (low32 (est x)) x)) a).
  Proof.
    rewrite rsqrt_step_ok. cbn [bind]. rewrite (fmul_unit false R128) by reflexivity. cbn [rbits]. change (fw false) with 32. apply f_equal.
    unfold v2 at 1. unfold v1 at 2. unfold v3, v2. apply pack_ext; [exact HW|]. intros i Hi. rewrite !lane_pack, !lane_v1 by auto.
    unfold wrap. fold (low32 (est (lane 32 i a))). f_equal. f_equal.
    assert (forall x y, rsqrt_step A x y mod 2 ^ 32 = rsqrt_step A x y) as -> by (intros; unfold rsqrt_step, low32; destruct (use_altivec A); apply Zmod_mod). reflexivity.
  Qed.
  Lemma rsqrt_ladder (v : Z) nul x86 neon ppc msa : by_rsqrt A false = true ->
    (use_neon64 A = false -> neon = Ok v) -> (ftz A false = true \/ use_vsx206 A = true -> ppc = Ok v) -> fl_ladder A false nul x86 neon ppc msa = Ok v.
  Proof.
    intros HZ Hn Hp. unfold fl_ladder, by_rsqrt in *. fl_unf. destruct (use_64 A) eqn:E64, (use_vsx206 A) eqn:E206;
    fam HV; rw_flags; cbn [orb andb negb] in *; repeat split_if;
    first [ apply Hn; rw_flags; reflexivity | apply Hp; rw_flags; tauto | discriminate | fcontra | hypfalse | vimp HV
      | exfalso; clear Hn Hp; revert HZ; rw_flags; cbn [orb andb negb]; rewrite ?Bool.andb_false_r; discriminate ].
  Qed.
  Lemma by_of_ftz d : ftz A d = true -> by_rsqrt A d = true.
  Proof. unfold ftz, by_rsqrt. destruct d, (use_altivec A), (use_neon_flt_sp A), (use_64 A); cbn; intros; first [reflexivity|discriminate]. Qed.
  Lemma by_not_wide d s : avail_flt A s = true -> by_rsqrt A d = true -> s = R128 /\ d = false.
  Proof.
    intros HS HB. split; [|destruct d; [discriminate|reflexivity]].
    assert (use_sse2 A = true -> by_rsqrt A d = false) as HX.
    { intros E. unfold by_rsqrt. destruct d; [reflexivity|]. fam HV; rw_flags; cbn [orb andb negb]; try reflexivity; try fcontra; vimp HV. }
    destruct s; auto; rewrite HX in HB by (apply avx_sse; auto; first [exact HS|apply avx512_avx; auto]); discriminate.
  Qed.
  Lemma fdiv_any d s a b : avail_flt A s = true -> i_fdiv est A d s a b = Ok (v2 (fw d) (rbits s) (unit_div est A d) a b).
  Proof.
    intros HS. destruct (ftz A d) eqn:EZ.
    - destruct (by_not_wide d s HS (by_of_ftz d EZ)) as [-> ->]. unfold i_fdiv, fl_sizes. cbv zeta. cbn [rbits]. change (fw false) with 32.
      pose proof (by_of_ftz false EZ) as HB. unfold unit_div. rewrite ieee_ftz', EZ. cbn [negb].
      apply rsqrt_ladder; auto.
      + intros ->. apply div_approx.
      + intros _. destruct (use_vsx206 A) eqn:E; [|apply div_approx]. exfalso. revert EZ. clear HB. unfold ftz. rewrite E. fam HV; rw_flags; cbn [orb andb negb]; rewrite ?Bool.andb_false_r, ?Bool.orb_false_r; try discriminate; try fcontra; vimp HV.
    - rewrite i_fdiv_ok by auto. apply f_equal. apply v2_ext; [apply fwok|]. intros x y _ _. unfold unit_div. rewrite ieee_ftz', EZ, fbits_fw. reflexivity.
  Qed.
  Lemma fsqrt_any d s a : avail_flt A s = true -> i_fsqrt est A d s a = Ok (v1 (fw d) (rbits s) (unit_sqrt est A d) a).
  Proof.
    intros HS. destruct (by_rsqrt A d) eqn:EB.
    - destruct (by_not_wide d s HS EB) as [-> ->]. unfold i_fsqrt, fl_sizes. cbv zeta. cbn [rbits]. change (fw false) with 32.
      unfold unit_sqrt. rewrite ieee_rsqrt', EB. cbn [negb]. apply rsqrt_ladder; auto.
      + intros ->. apply sqrt_approx.
      + intros _. apply sqrt_approx.
    - rewrite i_fsqrt_ok by auto. apply f_equal. unfold v1, v2, v3. apply pack_ext; [apply fwok|]. intros i Hi. unfold unit_sqrt. rewrite ieee_rsqrt', EB, fbits_fw. reflexivity.
  Qed.
  Lemma unit_mul_ran d x y : 0 <= unit_mul A d x y < 2 ^ fw d.
  Proof.
    unfold unit_mul. rewrite denorm0_fz, fbits_fw. cbv zeta. apply fz_ran. destruct (no_mul A d); [apply f_fma_ran|apply f_mul_ran].
    pose proof (fw_pos d). pose proof (pow2_pos (fw d) ltac:(lia)). lia.
  Qed.
  Lemma unit_div_ran d x y : 0 <= y < 2 ^ fw d -> 0 <= unit_div est A d x y < 2 ^ fw d.
  Proof. intros. unfold unit_div. destruct (ieee_unit A d); [rewrite fbits_fw; apply f_div_ran; auto|apply unit_mul_ran]. Qed.
  Lemma unit_sqrt_ran d x : 0 <= x < 2 ^ fw d -> 0 <= unit_sqrt est A d x < 2 ^ fw d.
  Proof. intros. unfold unit_sqrt. destruct (ieee_sqrt A d); [rewrite fbits_fw; apply f_sqrt_ran; auto|apply unit_mul_ran]. Qed.
End N.

(** the lane function of min or max, whatever the register *)
Section M.
  Variables (A : arch) (d : bool).
  Hypothesis HV : valid_arch A = true.
  Notation w := (fw d).
  Notation z := (fz (ftz A d) w).
  Definition mm_lane (nul x86 hw msa : Z -> Z -> Z -> Z) : Z -> Z -> Z :=
    match fl_ladder A d (Ok (nul w)) (Ok (x86 w)) (Ok (fun x y => hw w (z x) (z y))) (Ok (fun x y => hw w (z x) (z y))) (Ok (msa w)) with
    | Ok f => f | _ => nul w end.
  Lemma mm_lane_ok nul x86 hw msa s (Q : Z -> Z -> Z -> Prop) : avail_flt A s = true ->
    (forall x y, Q x y (nul w x y)) -> (forall x y, Q x y (x86 w x y)) -> (forall x y, Q x y (hw w x y)) -> (forall x y, Q x y (msa w x y)) ->
    (forall x y, inr d x -> inr d y -> inr d (nul w x y)) -> (forall x y, inr d x -> inr d y -> inr d (x86 w x y)) ->
    (forall x y, inr d x -> inr d y -> inr d (hw w x y)) -> (forall x y, inr d x -> inr d y -> inr d (msa w x y)) ->
    (forall a b, fminmax nul x86 hw msa A d s a b = Ok (v2 w (rbits s) (mm_lane nul x86 hw msa) a b)) /\
    (forall x y, inr d x -> inr d y -> inr d (mm_lane nul x86 hw msa x y)) /\ forall x y, Q (z x) (z y) (mm_lane nul x86 hw msa x y).
  Proof.
    intros HA Q1 Q2 Q3 Q4 R1 R2 R3 R4.
    assert (forall g, ftz A d = false -> (forall x y, Q x y (g x y)) -> forall x y, Q (z x) (z y) (g x y)) as HZ.
    { intros g E Hg x y. unfold fz. rewrite E. apply Hg. }
    assert (HX : use_sse2 A = true -> mm_lane nul x86 hw msa = x86 w).
    { intros E. unfold mm_lane, fl_ladder. fl_unf. destruct d; fam HV; rw_flags; cbn [orb andb negb]; try reflexivity; try fcontra; vimp HV. }
    split.
    - intros a b. unfold fminmax. cbv zeta.
      destruct s; cbn [fl_sizes avail_flt rbits] in *.
      + assert (U : fl_ladder A d (Ok 0) (Ok 0) (Ok 0) (Ok 0) (Ok 0) = Ok 0).
        { clear -HV. unfold fl_ladder. fl_unf. destruct d; fam HV; rw_flags; cbn [orb andb negb]; repeat split_if; try reflexivity; try fcontra; vimp HV. }
        revert U. clear. unfold mm_lane, fl_ladder. destruct d;
        repeat match goal with |- context [if ?c then _ else _] => lazymatch c with f_neg _ _ => fail | _ => destruct c end end;
        intros U; first [discriminate U | reflexivity].
      + rewrite HA, HX by (apply avx_sse; auto). reflexivity.
      + rewrite HA, HX by (apply avx_sse; auto; apply avx512_avx; auto). reflexivity.
    - unfold mm_lane.
      apply (fl_cases A d (fun r => (forall x y, inr d x -> inr d y -> inr d (match r with Ok f => f | _ => nul w end x y)) /\
        forall x y, Q (z x) (z y) (match r with Ok f => f | _ => nul w end x y))); auto.
      + intros []. split; auto. 
      + intros []. split; auto.
      + intros _. split; [intros; apply R3; apply fz_ran; auto|auto].
      + intros _. split; [intros; apply R3; apply fz_ran; auto|auto].
  Qed.
  Definition lane_min := mm_lane null_fmin mm_fmin hw_fmin msa_fmin.
  Definition lane_max := mm_lane null_fmax mm_fmax hw_fmax msa_fmax.
  Lemma lane_min_ok s : avail_flt A s = true -> (forall a b, i_fmin A d s a b = Ok (v2 w (rbits s) lane_min a b)) /\
    (forall x y, inr d x -> inr d y -> inr d (lane_min x y)) /\ forall x y, chooses_min w (z x) (z y) (lane_min x y).
  Proof. intros HA. apply mm_lane_ok; intros; auto using mm_fmin_c, null_fmin_c, hw_fmin_c, msa_fmin_c, mm_fmin_r, null_fmin_r, hw_fmin_r, msa_fmin_r. Qed.
  Lemma lane_max_ok s : avail_flt A s = true -> (forall a b, i_fmax A d s a b = Ok (v2 w (rbits s) lane_max a b)) /\
    (forall x y, inr d x -> inr d y -> inr d (lane_max x y)) /\ forall x y, chooses_max w (z x) (z y) (lane_max x y).
  Proof. intros HA. apply mm_lane_ok; intros; auto using mm_fmax_c, null_fmax_c, hw_fmax_c, msa_fmax_c, mm_fmax_r, null_fmax_r, hw_fmax_r, msa_fmax_r. Qed.
End M.
