(** Conversions of integers to float64 *)
From Verif Require Import Proof.FloatsP3 Proof.FloatRoundP Proof.FArithP Proof.FConvP Proof.FConvP2 Proof.FConv64P Proof.CastP Proof.CmpP Proof.ConvertP Proof.ConvertP2 Proof.SplitP Proof.BlendP.
From Verif Require Export Proof.FConv64P2.
From Coq Require Import Lia.

Definition cvi (sg : bool) (x : Z) : Z := f_of_int 64 (if sg then sgn 32 x else x).
Lemma cvi_ran sg x : 0 <= x < 2 ^ 32 -> 0 <= cvi sg x < 2 ^ 64.
Proof. intros _. apply of_int64_ran. Qed.
Section X.
  Variable A : arch.
  Hypothesis HV : valid_arch A = true.
  Variable sg : bool.
  Notation f := (cvi sg).
  Lemma sgn_ext x : 0 <= x < 2 ^ 32 -> (if sg then sgn 64 (wrap 64 (s_extend sg 32 64 x)) else wrap 64 (s_extend sg 32 64 x)) = (if sg then sgn 32 x else x).
  Proof.
    intros Hx. unfold s_extend. change (?a mod 2 ^ 64) with (wrap 64 a). destruct sg.
    - pose proof (sgn_range 32 x ltac:(lia)) as HR. change (2 ^ (32 - 1)) with 2147483648 in HR.
      rewrite wrap_wrap, sgn_wrap. apply sgn_id; [lia|]. change (2 ^ (64 - 1)) with 9223372036854775808. lia.
    - apply wrap_small. change (2 ^ 32) with 4294967296 in Hx. change (2 ^ 64) with 18446744073709551616. lia.
  Qed.
  (** registers of 64-bit integers *)
  Lemma lanes_cvt64 s l : Forall (reg (rbits s)) l -> lanes 64 s (map (cvt64_pd sg (rbits s)) l) = map (fun x => f_of_int 64 (if sg then sgn 64 x else x)) (lanes 64 s l).
  Proof.
    intros Hl. induction Hl as [|x l Hx Hl IH]; [reflexivity|]. cbn [map]. rewrite !lanes_cons, map_app, IH. f_equal.
    unfold elems. rewrite map_map. apply map_ext_in. intros i Hi. apply in_seq in Hi. pose proof (nl_div 64 (rbits s) (w64 s)).
    unfold cvt64_pd. rewrite lane_v1 by (try apply w64; lia). apply wrap_small, of_int64_ran.
  Qed.
  Lemma via64 a l : wfv R128 l -> length l = 2%nat -> lanes 64 R128 l = map (s_extend sg 32 64) (elems 32 4 a) ->
    up_ok R128 R128 f a (map (cvt64_pd sg 128) l).
  Proof.
    intros Wl Ll El. split.
    - apply Forall_forall. intros y Hy. apply in_map_iff in Hy. destruct Hy as (x & <- & _). apply v1_reg. reflexivity.
    - rewrite map_length, Ll. split; [reflexivity|]. pose proof (lanes_cvt64 R128 l Wl) as HL. change (rbits R128) with 128 in *. rewrite HL, El, map_map.
      change (nl 32 128) with 4%nat. apply map_ext_in. intros x Hx. unfold cvi. f_equal.
      assert (0 <= x < 2 ^ 32) as Hr by (apply in_elems in Hx; [auto|lia]). rewrite <- (sgn_ext x Hr).
      assert (wrap 64 (s_extend sg 32 64 x) = s_extend sg 32 64 x) as ->; [|reflexivity].
      unfold s_extend. destruct sg; [apply wrap_wrap|]. apply wrap_small. change (2 ^ 32) with 4294967296 in Hr. change (2 ^ 64) with 18446744073709551616. lia.
  Qed.
  (** registers given by their lanes *)
  Lemma two64 a x y : reg 128 x -> reg 128 y -> (forall i, 0 <= i < 2 -> lane 64 i x = wrap 64 (s_extend sg 32 64 (lane 32 i a)) /\ lane 64 i y = wrap 64 (s_extend sg 32 64 (lane 32 (2 + i) a))) ->
    up_ok R128 R128 f a [cvt64_pd sg 128 x; cvt64_pd sg 128 y].
  Proof.
    intros Hx Hy H. apply up_two; [apply v1_reg; reflexivity|apply v1_reg; reflexivity|]. intros i Hi. change (rbits R128 / 64) with 2 in *. destruct (H i Hi) as [E1 E2].
    unfold cvt64_pd. rewrite !lane_v1 by (auto; reflexivity). rewrite !wrap_small by apply of_int64_ran. rewrite E1, E2, !sgn_ext by (apply lane_range; lia). auto.
  Qed.
  Lemma via_vmovl a : up_ok R128 R128 f a [cvt64_pd sg 128 (vmovl sg 32 (vget_low a)); cvt64_pd sg 128 (vmovl sg 32 (vget_high a))].
  Proof.
    apply two64; [unfold vmovl, vmovl_s, vmovl_u; destruct sg; apply pack_reg; reflexivity|unfold vmovl, vmovl_s, vmovl_u; destruct sg; apply pack_reg; reflexivity|].
    intros i Hi. pose proof (fun h => lane_lane 32 2 h i a) as L. change (32 * 2) with 64 in L.
    unfold vmovl, vmovl_s, vmovl_u, s_extend, vget_low, vget_high. change (?a mod 2 ^ 64) with (wrap 64 a). change (2 * 32) with 64.
    destruct sg; rewrite !lane_pack by (auto; reflexivity); rewrite !L by lia; rewrite ?wrap_wrap; change (0 * 2 + i) with i; change (1 * 2 + i) with (2 + i); auto.
  Qed.
  Lemma lane_merge h a b i : 0 <= i < 2 -> lane 64 i (if h : bool then vec_mergel 32 a b else vec_mergeh 32 a b) = lane 32 ((if h then 2 else 0) + i) a + lane 32 ((if h then 2 else 0) + i) b * 2 ^ 32.
  Proof.
    intros Hi. pose proof (lane_double 32 i (if h then vec_mergel 32 a b else vec_mergeh 32 a b)) as D. change (32 * 2) with 64 in D. rewrite D by lia. clear D.
    assert (E : i = 0 \/ i = 1) by lia.
    destruct h; unfold vec_mergel, vec_mergeh; change (128 / 32) with 4; set (L := fun k : Z => if Z.even k then _ else _);
      pose proof (fun k H => lane_lsh 32 128 4 L [a; b] 0 k eq_refl H ltac:(split; reflexivity || discriminate)) as LL;
      destruct E as [-> | ->];
      [pose proof (LL 0 ltac:(lia)) as X; pose proof (LL 1 ltac:(lia)) as Y|pose proof (LL 2 ltac:(lia)) as X; pose proof (LL 3 ltac:(lia)) as Y|pose proof (LL 0 ltac:(lia)) as X; pose proof (LL 1 ltac:(lia)) as Y|pose proof (LL 2 ltac:(lia)) as X; pose proof (LL 3 ltac:(lia)) as Y];
      etransitivity; try (apply (f_equal2 (fun p q => p + q * 2 ^ 32) X Y)); reflexivity.
  Qed.
End X.

Lemma sign_merge x : 0 <= x < 2 ^ 32 -> x + wrap 32 (Z.shiftr (sgn 32 x) 31) * 2 ^ 32 = wrap 64 (s_extend true 32 64 x).
Proof.
  intros Hx. unfold s_extend. change (?a mod 2 ^ 64) with (wrap 64 a). rewrite wrap_wrap.
  assert (HS : sgn 32 x = if x <? 2147483648 then x else x - 4294967296).
  { unfold sgn, wrap. change (2 ^ 32) with 4294967296 in *. change (2 ^ (32 - 1)) with 2147483648. rewrite Z.mod_small by lia. reflexivity. }
  change (2 ^ 32) with 4294967296 in *. rewrite Z.shiftr_div_pow2 by lia. change (2 ^ 31) with 2147483648. rewrite HS.
  assert (E64 : 2 ^ 64 = 18446744073709551616) by reflexivity.
  destruct (Z.ltb_spec x 2147483648).
  - rewrite (Z.div_small x) by lia. change (wrap 32 0) with 0. symmetry. rewrite wrap_small by (rewrite E64; lia). ring.
  - assert ((x - 4294967296) / 2147483648 = -1) as ->. { symmetry. apply (Z.div_unique _ _ _ (x - 4294967296 + 2147483648)); lia. }
    change (wrap 32 (-1)) with 4294967295. unfold wrap. symmetry. rewrite E64. symmetry. apply (Z.mod_unique _ _ (-1)); lia.
Qed.
Section Y.
  Variable A : arch.
  Hypothesis HV : valid_arch A = true.
  Definition u32_step (y : Z) : Z := if f_lt 64 y 0 then f_add 64 y 0x41f0000000000000 else y.
  Lemma u32_correct_ok s a : avail_flt A s = true -> reg (rbits s) a -> u32_correct A s a = Ok (v1 64 (rbits s) u32_step a).
  Proof.
    intros HA Ha. unfold u32_correct.
    pose proof (fcmp_d_ok A true s HV HA f_lt f_lt a (fconst true s 0) (fun _ _ => eq_refl)) as HC.
    apply Rok_ex in HC. destruct HC as (m & Em & Hm). unfold f_cmp_lt. rewrite Em. cbn [bind].
    unfold i_fadd. rewrite (farith_ok A true s HV HA). cbn [bind].
    unfold f_blend_m. erewrite (f_sel_m_ok A true s HV HA (f_blend A true s) (fun a b p => f_blend_ok A true s HV HA a b p)); [|apply v2_reg, w64|exact Ha|exact Hm].
    apply f_equal. apply eq_v1; [apply w64|apply pack_reg, w64|]. intros i Hi. change (fw true) with 64. rewrite lane_pack by (auto using w64).
    change (ftz A true) with false. cbn [fz]. rewrite lane_v2 by (auto using w64). unfold fconst. change (fw true) with 64. rewrite !lane_splat by (auto using w64).
    change (wrap 64 0) with 0. change (wrap 64 0x41f0000000000000) with 0x41f0000000000000. unfold u32_step.
    destruct (f_lt 64 (lane 64 i a) 0); [apply wrap_wrap|reflexivity].
  Qed.
  Lemma u32_correct_cvt s k a : avail_flt A s = true -> u32_correct A s (cvt_up (rbits s) (cvi true) k a) = Ok (cvt_up (rbits s) (cvi false) k a).
  Proof.
    intros HA. rewrite u32_correct_ok by (auto; apply cvt_up_reg). apply f_equal. symmetry. apply eq_v1; [apply w64|apply cvt_up_reg|].
    intros i Hi. rewrite !(lane_up _ (cvi_ran true)), (lane_up _ (cvi_ran false)) by auto. set (x := lane 32 (k + i) a).
    assert (Hx : 0 <= x < 2 ^ 32) by (apply lane_range; lia). change (cvi false x) with (f_of_int 64 x). rewrite <- (u32_fix_ok x Hx).
    unfold u32_fix, u32_step. change (cvi true x) with (f_of_int 64 (sgn 32 x)). cbv zeta. symmetry. apply wrap_small. pose proof (u32_fix_ok x Hx) as E. unfold u32_fix in E. cbv zeta in E. rewrite E. apply of_int64_ran.
  Qed.
End Y.
Section Z.
  Variable A : arch.
  Hypothesis HV : valid_arch A = true.
  Notation ok f s a op := (exists l, op = Ok l /\ up_ok s (dreg A s) f a l).
  Lemma ext64_up sg a : use_avx A = false -> reg 128 a -> exists l, i_ext_32_64 A sg R128 a = Ok l /\ up_ok R128 R128 (cvi sg) a (map (cvt64_pd sg 128) l).
  Proof.
    intros HX Ha. destruct (i_ext_32_64_ok A sg R128 a HV eq_refl Ha) as (l & El & W & L & E).
    assert (E2 : use_avx2 A = false /\ use_avx512f A = false /\ use_avx512bw A = false). { destruct (valid_imp A HV) as (_ & _ & I1 & I2 & I3 & _). destruct (use_avx512bw A), (use_avx512f A), (use_avx2 A); auto; rewrite ?HX in *; auto; exfalso; fcontra || discriminate (I3 eq_refl) || discriminate (I1 eq_refl) || discriminate (I2 eq_refl). }
    destruct E2 as (E2 & E5 & E6).
    assert (EV : vreg A 64 (rbits R128 * 64 / 32) = R128). { unfold vreg, fast_int. rewrite E2, E5, E6. reflexivity. }
    unfold per, vlen in L. rewrite EV in *. exists l. split; auto. apply via64; auto.
  Qed.
  Theorem i_to_float64_i_ok s a : avail_int A 32 s = true -> reg (rbits s) a -> ok (cvi true) s a (i_to_float64_i A s a).
  Proof.
    intros HA Ha. pose proof (cvi_ran true) as Hf. unfold i_to_float64_i, cvtepi32_pd. change (fun x => f_of_int 64 (sgn 32 x)) with (cvi true).
    destruct s; cbn [avail_int dreg rbits] in *; change (32 <=? 16) with false in HA; cbn iota in HA.
    - assert (H1 : up_ok R128 R256 (cvi true) a [cvt_up 256 (cvi true) 0 a]) by (apply up_one; auto).
      pose proof (up_move _ Hf a Ha) as H2. pose proof (up_high _ Hf a) as H3. pose proof (via_vmovl true a) as H4. unfold vmovl in H4.
      pose proof (ext64_up true a) as H5.
      assert (HM : i_move4_l A R128 2 a = Ok (lsh 32 128 4 (p_move_l 4 2) [a])) by (apply mv32_ok; auto; lia).
      rewrite (i_shift_r_t_ok A true W32 R128 a 31 HV eq_refl Ha) by (cbn; lia). cbn [bind wb].
      set (sg := shr_v true 32 (rbits R128) 31 a) in *.
      assert (H6 : up_ok R128 R128 (cvi true) a [cvt64_pd true 128 (vec_mergeh 32 a sg); cvt64_pd true 128 (vec_mergel 32 a sg)]).
      { apply two64; [apply lsh_reg; reflexivity|apply lsh_reg; reflexivity|]. intros i Hi.
        pose proof (lane_merge false a sg i Hi) as L1. pose proof (lane_merge true a sg i Hi) as L2. cbn iota in L1, L2. rewrite L1, L2, Z.add_0_l.
        unfold sg, shr_v. rewrite !lane_v1 by (try reflexivity; change (rbits R128 / 32) with 4; lia). cbn iota. rewrite !sign_merge by (apply lane_range; lia). auto. }
      rewrite HM. cbn [bind]. unfold use_neon64.
      set (r1 := cvt_up 256 _ 0 a) in *. set (r2 := [cvt_up 128 (cvi true) 0 a; cvt_up 128 _ 0 (lsh _ _ _ _ _)]) in *. set (r3 := [cvt_up 128 (cvi true) 0 a; cvt_up 128 _ 2 a]) in *.
      set (r4 := [cvt64_pd _ _ (vmovl_s _ _); _]) in *. set (r5 := [cvt64_pd _ _ (vec_mergeh _ _ _); _]) in *. clearbody r1 r2 r3 r4 r5. clear Hf HM HA.
      assert (H5' : use_avx A = false -> exists l, (let* a64 := i_ext_32_64 A true R128 a in Ok (map (cvt64_pd true 128) a64)) = Ok l /\ up_ok R128 R128 (cvi true) a l).
      { intros HX. destruct (H5 HX Ha) as (l & El & Hl). rewrite El. eexists. split; [reflexivity|exact Hl]. }
      clear H5. set (e := let* a64 := _ in _) in *. clearbody e.
      fam HV; rw_flags; cbn [orb andb negb]; repeat split_if; cbn [orb andb negb];
        first [eexists; split; [reflexivity|assumption] | (apply H5'; first [assumption|reflexivity|fcontra|vimp HV]) | fcontra | vimp HV].
    - rewrite HA. destruct (use_avx512f A).
      + eexists. split; [reflexivity|]. apply up_one; auto.
      + eexists. split; [reflexivity|]. apply (up_split _ Hf R256); discriminate.
    - rewrite HA. eexists. split; [reflexivity|]. apply (up_split _ Hf R512); discriminate.
  Qed.
  Theorem i_to_float64_u_ok s a : avail_int A 32 s = true -> reg (rbits s) a -> ok (cvi false) s a (i_to_float64_u A s a).
  Proof.
    intros HA Ha. pose proof (cvi_ran false) as Hf. unfold i_to_float64_u, cvtepi32_pd, cvtepu32_pd. change (fun x => f_of_int 64 (sgn 32 x)) with (cvi true). change (f_of_int 64) with (cvi false).
    destruct s; cbn [avail_int dreg rbits] in *; change (32 <=? 16) with false in HA; cbn iota in HA.
    - assert (H1 : up_ok R128 R256 (cvi false) a [cvt_up 256 (cvi false) 0 a]) by (apply up_one; auto).
      pose proof (up_move _ Hf a Ha) as H2. pose proof (up_high _ Hf a) as H3. pose proof (via_vmovl false a) as H4. unfold vmovl in H4.
      pose proof (ext64_up false a) as H5.
      assert (HM : i_move4_l A R128 2 a = Ok (lsh 32 128 4 (p_move_l 4 2) [a])) by (apply mv32_ok; auto; lia).
      assert (H6 : up_ok R128 R128 (cvi false) a [cvt64_pd false 128 (vec_mergeh 32 a 0); cvt64_pd false 128 (vec_mergel 32 a 0)]).
      { apply two64; [apply lsh_reg; reflexivity|apply lsh_reg; reflexivity|]. intros i Hi.
        pose proof (lane_merge false a 0 i Hi) as L1. pose proof (lane_merge true a 0 i Hi) as L2. cbn iota in L1, L2. rewrite L1, L2, Z.add_0_l, !lane_of_zero, !Z.mul_0_l, !Z.add_0_r.
        unfold s_extend. assert (HW : forall j, wrap 64 (lane 32 j a) = lane 32 j a).
        { intros j. apply wrap_small. pose proof (lane_range 32 j a ltac:(lia)) as HR. change (2 ^ 32) with 4294967296 in HR. change (2 ^ 64) with 18446744073709551616. lia. }
        rewrite !HW. auto. }
      assert (C1 : use_avx A = true -> u32_correct A R256 (cvt_up 256 (cvi true) 0 a) = Ok (cvt_up 256 (cvi false) 0 a)) by (intros HX; apply (u32_correct_cvt A HV R256); exact HX).
      assert (C2 : forall y, u32_correct A R128 (cvt_up 128 (cvi true) 0 y) = Ok (cvt_up 128 (cvi false) 0 y)) by (intros y; apply (u32_correct_cvt A HV R128); reflexivity).
      rewrite HM. cbn [bind]. rewrite !C2. cbn [bind]. unfold use_neon64.
      set (r1 := cvt_up 256 (cvi false) 0 a) in *. set (r2 := [cvt_up 128 (cvi false) 0 a; cvt_up 128 _ 0 (lsh _ _ _ _ _)]) in *. set (r3 := [cvt_up 128 (cvi false) 0 a; cvt_up 128 _ 2 a]) in *.
      set (r4 := [cvt64_pd _ _ (vmovl_u _ _); _]) in *. set (r5 := [cvt64_pd _ _ (vec_mergeh _ _ _); _]) in *. set (q := u32_correct A R256 _) in *.
      assert (H5' : use_avx A = false -> exists l, (let* a64 := i_ext_32_64 A false R128 a in Ok (map (cvt64_pd false 128) a64)) = Ok l /\ up_ok R128 R128 (cvi false) a l).
      { intros HX. destruct (H5 HX Ha) as (l & El & Hl). rewrite El. eexists. split; [reflexivity|exact Hl]. }
      clear H5. set (e := let* a64 := _ in _) in *. clearbody e q r1 r2 r3 r4 r5. clear Hf HM HA C2.
      assert (HQ : use_avx A = true -> exists l, (let* r := q in Ok [r]) = Ok l /\ up_ok R128 R256 (cvi false) a l).
      { intros HX. rewrite (C1 HX). eexists. split; [reflexivity|assumption]. }
      clear C1. set (e2 := let* r := q in _) in *. clearbody e2.
      fam HV; rw_flags; cbn [orb andb negb]; repeat split_if; cbn [orb andb negb];
        first [eexists; split; [reflexivity|assumption] | (apply HQ; first [assumption|reflexivity|fcontra]) | (apply H5'; first [assumption|reflexivity|fcontra|vimp HV]) | fcontra | vimp HV].
    - rewrite HA. destruct (use_avx512f A).
      + eexists. split; [reflexivity|]. apply up_one; auto.
      + assert (HX : use_avx A = true) by (destruct (valid_imp A HV) as (_ & _ & _ & _ & I & _); auto).
        unfold i_split1. change (cvt_up 256) with (cvt_up (rbits R256)). rewrite !(u32_correct_cvt A HV R256) by exact HX. cbn [bind].
        eexists. split; [reflexivity|]. apply (up_split _ Hf R256); discriminate.
    - rewrite HA. eexists. split; [reflexivity|]. apply (up_split _ Hf R512); discriminate.
  Qed.
  (** 64-bit integers *)
  Definition i64_impl (s : rsz) : bool := negb (use_sse2 A) || use_avx512vl A || match s with R512 => use_avx512f A | _ => false end.
  Theorem i_to_float64_64_ok sg s a : avail_int A 64 s = true -> i64_impl s = true -> i_to_float64_64 A sg s a = Ok (cvt64_pd sg (rbits s) a).
  Proof.
    intros HA HI. unfold i64_impl in HI. destruct s; cbn [i_to_float64_64 avail_int rbits] in *; change (64 <=? 16) with false in HA; cbn iota in HA.
    - rewrite orb_false_r in HI. unfold use_neon64. revert HI. clear HA. fam HV; rw_flags; cbn [orb andb negb]; repeat split_if; intros HI; try reflexivity; try discriminate HI; try fcontra; vimp HV.
    - rewrite orb_false_r in HI. assert (HX : use_avx A = true) by (destruct (valid_imp A HV) as (_ & _ & _ & _ & I & _); auto). rewrite HX.
      rewrite (avx_sse A HV HX) in HI. cbn [negb orb] in HI. rewrite HI. reflexivity.
    - rewrite HA. reflexivity.
  Qed.
End Z.
