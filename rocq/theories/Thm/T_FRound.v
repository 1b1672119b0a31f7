(** C51: floor, ceil and trunc round to an integral value in their direction: NaN stays NaN,
    infinities stay, and a finite lane x becomes a number whose value is exactly the floor (ceiling,
    integer part) of the value of x.  Units that flush denormals to zero read them as zero. *)
From Verif Require Import Proof.FloatsP3 Proof.FloatRoundP Proof.FArithP Proof.FConvP Proof.FConvP4 Proof.FRoundP Proof.FRoundP2 Proof.FRoundP3 Proof.FRoundP4 Model.FRound Thm.T_FArith.
From Coq Require Import Lia.

(** the emulated roundings *)
Definition emul32 (A : arch) (s : rsz) : bool :=
  match s with R128 => negb (use_sse41 A) && (use_sse2 A || use_msa A || (use_neon_flt_sp A && negb (use_64 A))) | _ => false end.
Definition emul64 (A : arch) (s : rsz) : bool := match s with R128 => negb (use_sse41 A) && (use_sse2 A || use_msa A) | _ => false end.

Section N.
  Variables (A : arch) (d : bool).
  Notation w := (fw d).
  Notation z := (fz (ftz A d) w).
  Lemma hw_rel g R dom : wok w R = true -> dir d g -> ftz A d = false -> reg_rel w R dom (fun x r => rounds_to g w (z x) (z r)) (hw_round g w R).
  Proof.
    intros HW HG HZ a Ha _. exists (v1 w R (f_integral g w) a). split; auto. split; [apply v1_reg; auto|]. intros i Hi. rewrite lane_v1 by auto. rewrite HZ. cbn [fz].
    assert (HL : 0 <= lane w i a < 2 ^ w) by (apply lane_range; destruct d; discriminate). destruct (integral_rounds d g _ HG HL) as [H1 H2]. rewrite wrap_small by exact H2. exact H1.
  Qed.
  Lemma ppc_rel g dom : dir d g -> reg_rel w 128 dom (fun x r => rounds_to g w (z x) (z r)) (ppc_round A d g).
  Proof.
    intros HG a Ha _. assert (HW : wok w 128 = true) by (destruct d; reflexivity). exists (v1 w 128 (fun x => f_integral g w (z x)) a). split; auto. split; [apply v1_reg; auto|]. intros i Hi. rewrite lane_v1 by auto.
    assert (HL : 0 <= lane w i a < 2 ^ w) by (apply lane_range; destruct d; discriminate). pose proof (fz_ran A d _ HL) as HZ.
    destruct (integral_rounds d g _ HG HZ) as [H1 H2]. rewrite wrap_small by exact H2.
    assert (EZ : z (f_integral g w (z (lane w i a))) = f_integral g w (z (lane w i a))); [|rewrite EZ; exact H1].
    destruct (f_finite w (z (lane w i a))) eqn:EF.
    - destruct H1 as (_ & _ & H1). destruct (H1 EF) as [F1 V1]. unfold fz at 1. destruct (ftz A d); auto. apply (int_not_denormal d _ _ V1).
    - assert (HN : f_inf w <= f_mag w (f_integral g w (z (lane w i a)))).
      { destruct H1 as (H1 & H3 & _). unfold f_finite in EF. apply Z.ltb_ge in EF.
        destruct (f_nan w (z (lane w i a))) eqn:EN. { specialize (H1 eq_refl). unfold f_nan in H1. apply Z.ltb_lt in H1. lia. }
        rewrite H3; auto. unfold f_isinf. unfold f_nan in EN. apply Z.ltb_ge in EN. apply Z.eqb_eq. lia. }
      generalize dependent (f_integral g w (z (lane w i a))). intros r _ _ HN. unfold fz. destruct (ftz A d); auto. unfold f_flush, f_denormal. assert (2 ^ fmant w < f_inf w) by (destruct d; reflexivity).
      destruct (Z.ltb_spec (f_mag w r) (2 ^ fmant w)); [lia|]. rewrite andb_false_r. reflexivity.
  Qed.
End N.

Section T.
  Variables (A : arch) (s : rsz).
  Hypotheses (HV : valid_arch A = true) (HA : avail_flt A s = true).
  Lemma hw_not_emul : use_null A || use_neon_no_flt_sp A = true -> ftz A false = false.
  Proof. unfold ftz, use_neon_no_flt_sp. intros HF; revert HF; fam HV; rw_flags; cbn [orb andb negb]; intros HH; auto; try discriminate HH. destruct (use_neon_flt_sp A); [discriminate HH|reflexivity]. Qed.
  (** float32 *)
  Lemma fround32 g g64 sw32 sw64 (dom : Z -> bool) : dir false g ->
    (s = R128 -> emul32 A s = true -> use_null A || use_neon_no_flt_sp A = false -> reg_rel 32 128 dom (fun x r => rounds_to g 32 (fz (ftz A false) 32 x) (fz (ftz A false) 32 r)) (sw32 A)) ->
    relates1 32 s (vec_impl1 (fround g g64 sw32 sw64 A false s)) dom (fun x r => rounds_to g 32 (fz (ftz A false) 32 x) (fz (ftz A false) 32 r)).
  Proof.
    intros HG HS. apply lift_rel1; [apply (fwok false s)|]. intros a Ha Hd. unfold fround. change (fw false) with 32. cbv zeta.
    assert (HW : forall R, wok 32 R = true -> ftz A false = false -> R = rbits s -> exists r, hw_round g 32 R a = Ok r /\ reg (rbits s) r /\ lane_rel 32 (rbits s) (fun x r => rounds_to g 32 (fz (ftz A false) 32 x) (fz (ftz A false) 32 r)) a r).
    { intros R H1 H2 ->. apply (hw_rel A false g (rbits s) dom); auto. }
    apply (fl_sizes_P A s (fun X => exists r, X = Ok r /\ reg (rbits s) r /\ lane_rel 32 (rbits s) _ a r)); auto.
    - intros Es. rewrite Es in *. cbn [rbits emul32] in *.
      destruct (use_null A || use_neon_no_flt_sp A) eqn:E1. { apply HW; auto. apply hw_not_emul; auto. }
      destruct (use_sse41 A) eqn:E2. { apply HW; auto. apply ftz_x86; auto. fam HV; rw_flags; auto; fcontra. }
      destruct (use_neon64 A) eqn:E3. { apply HW; auto. unfold ftz, use_neon64 in *. apply andb_prop in E3 as [E3 E4]. rewrite E4. fam HV; rw_flags; cbn [negb andb orb]; rewrite ?andb_false_r; auto; fcontra. }
      destruct (use_sse2 A || use_neon_flt_sp A || use_msa A) eqn:E4.
      + apply HS; auto. cbn [negb andb]. unfold use_neon64 in E3. destruct (use_sse2 A); auto. destruct (use_msa A); auto. cbn [orb] in *. rewrite orb_false_r in E4. rewrite E4. cbn [andb].
        apply andb_false_iff in E3 as [E3|E3]; [|rewrite E3; reflexivity]. vimp HV.
      + assert (use_altivec A = true) as ->. { revert E1 E4. unfold use_neon_no_flt_sp. fam HV; rw_flags; cbn [orb andb negb]; intros E1' E4'; auto; try fcontra; try discriminate E1'; try discriminate E4'; destruct (use_neon_flt_sp A); try discriminate E1'; try discriminate E4'; vimp HV. }
        apply (ppc_rel A false g dom); auto.
    - intros Es HX. apply HW; auto; [apply ftz_x86; auto; apply avx_sse; auto|rewrite Es; reflexivity].
    - intros Es HX. apply HW; auto; [apply ftz_x86; auto; apply avx_sse; auto; apply avx512_avx; auto|rewrite Es; reflexivity].
  Qed.
  Theorem trunc_float32_spec : relates1 32 s (trunc_f A false s) all_lanes
    (fun x r => rounds_to to_zero 32 (fz (ftz A false) 32 x) (fz (ftz A false) 32 r)).
  Proof.
    apply fround32; [apply dir_zero|]. intros _ _ HN. apply (lift_l A (trunc_l A (ftz A false))).
    - intros a Ha. apply trunc_sw_ok; auto.
    - intros x Hx. unfold trunc_l. destruct (rg_in _ _ _ x); auto. apply of_int_r.
    - intros x Hx _. apply trunc_lane; auto.
  Qed.
  (** where floor is emulated, 8388607.5 and -8388607.5 are left out: see the refutation below *)
  Theorem floor_float32_partial : relates1 32 s (floor_f A false s) (fun x => negb (emul32 A s && (f_mag 32 x =? 0x4affffff)))
    (fun x r => rounds_to down 32 (fz (ftz A false) 32 x) (fz (ftz A false) 32 r)).
  Proof.
    apply fround32; [apply dir_down|]. intros _ HE HN. apply (lift_l A (floor_l A (ftz A false))).
    - intros a Ha. apply floor_sw_ok; auto.
    - intros x Hx. unfold floor_l. destruct (rg_in _ _ _ x); auto. apply of_int_r.
    - intros x Hx Hd. apply floor_lane; auto. rewrite HE in Hd. cbn [andb] in Hd. apply negb_true_iff in Hd. apply Z.eqb_neq. exact Hd.
  Qed.
  Theorem ceil_float32_partial : relates1 32 s (ceil_f A false s) (fun x => negb (emul32 A s && (f_mag 32 x =? 0x4affffff)))
    (fun x r => rounds_to up 32 (fz (ftz A false) 32 x) (fz (ftz A false) 32 r)).
  Proof.
    apply fround32; [apply dir_up|]. intros _ HE HN. apply (lift_l A (ceil_l A (ftz A false))).
    - intros a Ha. apply ceil_sw_ok; auto.
    - intros x Hx. unfold ceil_l. cbv zeta. destruct (rg_in _ _ _ x); auto. apply of_int_r.
    - intros x Hx Hd. apply ceil_lane; auto. rewrite HE in Hd. cbn [andb] in Hd. apply negb_true_iff in Hd. apply Z.eqb_neq. exact Hd.
  Qed.
  (** float64 *)
  Lemma fround64 g g64 sw32 sw64 (dom : Z -> bool) : dir true g -> (s = R128 -> use_neon64 A = true -> g64 = g) ->
    (s = R128 -> emul64 A s = true -> reg_rel 64 128 dom (fun x r => rounds_to g 64 x r) (sw64 A)) ->
    relates1 64 s (vec_impl1 (fround g g64 sw32 sw64 A true s)) dom (fun x r => rounds_to g 64 x r).
  Proof.
    intros HG HN HS. apply lift_rel1; [apply (fwok true s)|]. intros a Ha Hd. unfold fround. change (fw true) with 64. cbv zeta.
    assert (HW : forall R, wok 64 R = true -> R = rbits s -> exists r, hw_round g 64 R a = Ok r /\ reg (rbits s) r /\ lane_rel 64 (rbits s) (fun x r => rounds_to g 64 x r) a r).
    { intros R H1 ->. apply (hw_rel A true g (rbits s) dom); auto. }
    apply (fl_sizes_P A s (fun X => exists r, X = Ok r /\ reg (rbits s) r /\ lane_rel 64 (rbits s) _ a r)); auto.
    - intros Es. rewrite Es in *. cbn [rbits emul64] in *.
      destruct (use_sse41 A) eqn:E2. { apply HW; auto. }
      destruct (use_sse2 A || use_msa A) eqn:E4. { apply HS; auto. }
      destruct (use_neon64 A) eqn:E3. { rewrite HN by auto. apply HW; auto. }
      destruct (use_vsx206 A) eqn:E5. { apply (ppc_rel A true g dom); auto. }
      assert (use_null A || use_neon32 A || use_altivec A = true) as ->; [|apply HW; auto].
      revert E3 E4. unfold use_neon64, use_neon32. fam HV; rw_flags; cbn [orb andb negb]; intros E3' E4'; auto; try discriminate E4'; try fcontra. rewrite E3'. reflexivity.
    - intros Es HX. apply HW; auto; rewrite Es; reflexivity.
    - intros Es HX. apply HW; auto; rewrite Es; reflexivity.
  Qed.
  (** truncation by masks misses 4503599627370495.5 and its opposite *)
  Theorem trunc_float64_partial : relates1 64 s (trunc_f A true s) (fun x => negb (emul64 A s && (f_mag 64 x =? 0x432fffffffffffff)))
    (fun x r => rounds_to to_zero 64 x r).
  Proof.
    apply fround64; [apply dir_zero|reflexivity|]. intros _ HE a Ha Hd. exists (pack 64 128 (fun i => trunc64_l (lane 64 i a))). split; [apply trunc64_sw_ok; auto|]. split; [apply (v1_reg 64 128 trunc64_l a); reflexivity|].
    intros i Hi. rewrite lane_pack by auto. assert (HL : 0 <= lane 64 i a < 2 ^ 64) by (apply lane_range; lia).
    assert (Hn : f_mag 64 (lane 64 i a) <> 0x432fffffffffffff). { specialize (Hd i Hi). rewrite HE in Hd. cbn [andb] in Hd. apply negb_true_iff in Hd. apply Z.eqb_neq. exact Hd. }
    rewrite wrap_small; [apply trunc64_lane; auto|].
    unfold trunc64_l. destruct (f_le 64 _ C64); auto. 
    assert (HB : forall c, reg 64 (Z.ldiff (Z.ldiff (lane 64 i a) (clear_l (lane 64 i a))) c)) by (intros; do 2 (apply ldiff_reg; [lia|]); exact HL).
    apply HB.
  Qed.
  (** floor and ceil of float64 wherever the instruction set has them *)
  Theorem floor_float64_partial : emul64 A s = false -> (s = R128 -> use_neon64 A = false) -> relates1 64 s (floor_f A true s) all_lanes (fun x r => rounds_to down 64 x r).
  Proof. intros HE HN. apply fround64; [apply dir_down| |]; intros H1 H2; [rewrite HN in H2 by auto; discriminate|rewrite HE in H2; discriminate]. Qed.
  Theorem ceil_float64_partial : emul64 A s = false -> relates1 64 s (ceil_f A true s) all_lanes (fun x r => rounds_to up 64 x r).
  Proof. intros HE. apply fround64; [apply dir_up|reflexivity|]; intros H1 H2; rewrite HE in H2; discriminate. Qed.
End T.
(** 8388607.5 is not changed by the emulated floor and ceil *)
Theorem floor_float32_refuted :
  floor_f arch_sse2 false R128 [0x4affffff] = Ok [0x4affffff] /\ ~ rounds_to down 32 0x4affffff 0x4affffff /\
  ceil_f arch_msa false R128 [0x4affffff] = Ok [0x4affffff] /\ ~ rounds_to up 32 0x4affffff 0x4affffff /\
  floor_f arch_neon32fp false R128 [0x4affffff] = Ok [0x4affffff].
Proof.
  split; [vm_compute; reflexivity|]. split. { intros (_ & _ & H). destruct (H eq_refl) as [_ E]. vm_compute in E. discriminate E. }
  split; [vm_compute; reflexivity|]. split; [|vm_compute; reflexivity]. intros (_ & _ & H). destruct (H eq_refl) as [_ E]. vm_compute in E. discriminate E.
Qed.
(** 4503599627370495.5 is not truncated by the masks *)
Theorem trunc_float64_refuted :
  trunc_f arch_sse2 true R128 [0x432fffffffffffff] = Ok [0x432fffffffffffff] /\ ~ rounds_to to_zero 64 0x432fffffffffffff 0x432fffffffffffff.
Proof. split; [vm_compute; reflexivity|]. intros (_ & _ & H). destruct (H eq_refl) as [_ E]. vm_compute in E. discriminate E. Qed.
(** SSE2 and MSA: floor(2.5) = 2.5, ceil(2.5) = 3.5; 64-bit ARM rounds 0.75 to 1 *)
Theorem floor_float64_refuted :
  floor_f arch_sse2 true R128 [0x4004000000000000] = Ok [0x4004000000000000] /\ ~ rounds_to down 64 0x4004000000000000 0x4004000000000000 /\
  floor_f arch_msa true R128 [0x4004000000000000] = Ok [0x4004000000000000] /\
  floor_f arch_neon64 true R128 [0x3fe8000000000000] = Ok [0x3ff0000000000000] /\ ~ rounds_to down 64 0x3fe8000000000000 0x3ff0000000000000.
Proof.
  split; [vm_compute; reflexivity|]. split. { intros (_ & _ & H). destruct (H eq_refl) as [_ E]. vm_compute in E. discriminate E. }
  split; [vm_compute; reflexivity|]. split; [vm_compute; reflexivity|]. intros (_ & _ & H). destruct (H eq_refl) as [_ E]. vm_compute in E. discriminate E.
Qed.
Theorem ceil_float64_refuted :
  ceil_f arch_sse2 true R128 [0x4004000000000000] = Ok [0x400c000000000000] /\ ~ rounds_to up 64 0x4004000000000000 0x400c000000000000.
Proof. split; [vm_compute; reflexivity|]. intros (_ & _ & H). destruct (H eq_refl) as [_ E]. vm_compute in E. discriminate E. Qed.

(** Concrete cases: -2.5, 2.5, 1.5 and 0 with SSE2; -2.5 and 0.75 with SSE2 and AVX *)
Example fround_case :
  floor_f arch_sse2 false R128 [0xc0200000402000003fc0000000000000] = Ok [0xc0400000400000003f80000000000000] /\
  ceil_f arch_sse2 false R128 [0xc0200000402000003fc0000000000000] = Ok [0xc0000000404000004000000000000000] /\
  trunc_f arch_sse2 false R128 [0xc0200000402000003fc0000000000000] = Ok [0xc0000000400000003f80000000000000] /\
  forallb (fun x => negb (emul32 arch_sse2 R128 && (f_mag 32 x =? 0x4affffff))) [0xc0200000; 0x40200000; 0x3fc00000; 0] = true /\
  trunc_f arch_sse2 true R128 [0xc0040000000000003fe8000000000000] = Ok [0xc0000000000000000000000000000000] /\
  floor_f arch_avx true R256 [0xc0040000000000003fe8000000000000] = Ok [0xc0080000000000000000000000000000].
Proof. split; [vm_compute; reflexivity|]. split; [vm_compute; reflexivity|]. split; [vm_compute; reflexivity|]. split; [vm_compute; reflexivity|]. split; vm_compute; reflexivity. Qed.
