(** Broadcasts. *)
From Verif Require Export Proof.PermuteP Proof.ArithP Model.SetSplat.

Lemma lane_splat_g w R c i : wok w R = true -> 0 <= i < R / w -> lane w i (splat w R c) = wrap w c.
Proof. intros H Hi. unfold splat. rewrite lane_pack by auto. reflexivity. Qed.
Lemma splat_wrap w R c : wok w R = true -> splat w R (wrap w c) = splat w R c.
Proof.
  intros H. destruct (wok_spec _ _ H) as (Hw & _). apply pack_ext; auto. intros. apply wrap_wrap.
Qed.
Lemma splat_cong w R c d : wok w R = true -> wrap w c = wrap w d -> splat w R c = splat w R d.
Proof. intros H E. apply pack_ext; auto. Qed.
(** lane 0 of the scalar placed in a register *)
Lemma lane0_wrap w k x : 0 < w <= k -> lane w 0 (wrap k x) = wrap w x.
Proof.
  intros. apply (bits_ext w); [lia|apply lane_range; lia|apply wrap_range; lia|]. intros i Hi.
  rewrite testbit_lane, !testbit_wrap by lia.
  destruct (Z.ltb_spec i w); [|lia]. destruct (Z.ltb_spec (w * 0 + i) k); [|lia].
  cbn [andb]. f_equal. lia.
Qed.
Lemma lane0_first w junk x : wok w 128 = true -> lane w 0 (first_elt w junk x) = wrap w x.
Proof.
  intros H. destruct (wok_spec _ _ H) as (Hw & HR & E & En). unfold first_elt.
  rewrite lane_pack by first [assumption | split; [lia|]; nia]. reflexivity.
Qed.
Lemma splat_n0_128 A e x : valid_arch A = true -> reg 128 x ->
  i_splat_n A e R128 0 x = Ok (splat (eb e) 128 (lane (eb e) 0 x)).
Proof.
  intros HV Hx. assert (HA : avail_et A e R128 = true) by (destruct e; reflexivity).
  rewrite (i_splat_n_ok A e R128) by (auto; destruct e; cbn; lia). f_equal.
  rewrite splat_lane_lsh by (destruct e; reflexivity). destruct e; reflexivity.
Qed.
Lemma first_reg w junk x : wok w 128 = true -> reg 128 (first_elt w junk x).
Proof. intros. apply pack_reg; auto. Qed.
Lemma wrap_reg k x : 0 <= k <= 128 -> reg 128 (wrap k x).
Proof.
  intros. unfold reg. pose proof (wrap_range k x ltac:(lia)). pose proof (Z.pow_le_mono_r 2 k 128 ltac:(lia) ltac:(lia)). lia.
Qed.
#[global] Hint Resolve first_reg wrap_reg : core.
Lemma i_set_splat32_ok A s junk v : valid_arch A = true -> avail_int A 32 s = true ->
  i_set_splat32 A s junk v = Ok (splat 32 (rbits s) v).
Proof.
  intros HV HA. unfold i_set_splat32, mm_broadcast, mm_cvtsi32. destruct s; cbn [rbits];
  lad HV HA ltac:(idtac; first [ reflexivity
   | rewrite lane0_wrap, splat_wrap by (reflexivity || lia); reflexivity
   | rewrite splat_n0_128, lane0_first, splat_wrap by (auto; reflexivity); reflexivity
   | cbn [i_permute4]; rewrite (i_permute4_32_ok A R128) by (auto; cbn [rbits]; first [lia|apply wrap_reg; lia]);
     cbn [rbits]; transitivity (Ok (splat 32 128 (lane 32 0 (wrap 32 v))));
     [f_equal; symmetry; selg 16 | rewrite lane0_wrap, splat_wrap by (reflexivity || lia); reflexivity] ]).
Qed.
Lemma splat8_128 v : 0 <= v < 128 -> splat 32 128 (v * 0x01010101) = splat 8 128 v.
Proof.
  intros H. apply Z.eqb_eq. revert v H. refine (forallb_zrange (fun v => _ =? _) 128 _). vm_compute. reflexivity.
Qed.
Lemma testbit_sgn_lo w x k : 0 <= k < w -> Z.testbit (sgn w x) k = Z.testbit x k.
Proof.
  intros H. pose proof (f_equal (fun z => Z.testbit z k) (wrap_sgn w x ltac:(lia))) as E. cbn beta in E.
  rewrite !testbit_wrap in E by lia. destruct (Z.ltb_spec k w); [exact E|lia].
Qed.
Lemma splat16_128 v : 0 <= v < 2 ^ 16 -> splat 32 128 (wrap 32 (Z.lor v (sgn 32 (v * 2 ^ 16)))) = splat 16 128 v.
Proof.
  intros H. symmetry. apply (reg_lanes 16 128); [reflexivity|apply splat_reg; reflexivity|apply splat_reg; reflexivity|].
  intros i Hi. rewrite lane_splat_g by (auto; reflexivity).
  rewrite (lane_splat_sub 16 2 128) by (try reflexivity; auto; lia).
  apply (bits_ext 16); [lia|apply wrap_range; lia|apply lane_range; lia|]. intros k Hk.
  pose proof (Z.mod_pos_bound i 2 ltac:(lia)).
  rewrite testbit_wrap by lia. rewrite testbit_lane by lia. rewrite Z.lor_spec.
  rewrite testbit_sgn_lo by lia.
  destruct (Z.ltb_spec k 16); [|lia]. cbn [andb].
  assert (i mod 2 = 0 \/ i mod 2 = 1) as [-> | ->] by lia.
  - rewrite (Z.mul_pow2_bits_low v 16) by lia. rewrite orb_false_r. f_equal; lia.
  - rewrite Z.mul_pow2_bits by lia. rewrite (testbit_high 16 v (16 * 1 + k)) by lia. cbn [orb]. f_equal; lia.
Qed.
Ltac ssleaf := first [ reflexivity
   | rewrite lane0_wrap, splat_wrap by (reflexivity || lia); reflexivity
   | rewrite splat_n0_128, lane0_first, splat_wrap by (auto; reflexivity); reflexivity ].
Lemma i_set_splat8_ok A s junk v : valid_arch A = true -> avail_int A 8 s = true -> 0 <= v < 2 ^ 8 ->
  (s = R128 -> use_sse2 A = true -> use_avx2 A = false -> v < 128) ->
  i_set_splat8 A s junk v = Ok (splat 8 (rbits s) v).
Proof.
  intros HV HA Hv HU. unfold i_set_splat8, mm_broadcast, mm_cvtsi32. destruct s; cbn [rbits];
  lad HV HA ltac:(idtac; first [ ssleaf
   | assert (v < 128) by (apply HU; auto);
     unfold c_mul, c_lit; rewrite (carith_gen c_int) by (try reflexivity; apply fits_spec; cbn; lia);
     rewrite cres_ok by (apply fits_spec; cbn; lia);
     cbn [bind snd]; rewrite (i_set_splat32_ok A R128) by auto; cbn [rbits]; rewrite splat_wrap by reflexivity;
     rewrite splat8_128 by lia; reflexivity ]).
Qed.
Lemma c_shl_u16 v : 0 <= v < 2 ^ 16 -> c_shl (c_u16, v) (c_lit 16) = Ok (c_i32, sgn 32 (v * 2 ^ 16)).
Proof.
  intros H. unfold c_shl, promote, c_u16, c_lit, c_int, c_i32. cbn [fst snd].
  change (16 <? 32) with true. change (32 <? 32) with false. cbv iota. cbn [fst snd].
  change ((16 <? 0) || (32 <=? 16)) with false. cbv iota.
  destruct (Z.ltb_spec v 0); [lia|]. destruct (Z.ltb_spec (v * 2 ^ 16) (2 ^ 32)); [reflexivity|lia].
Qed.
Lemma lor_shl16 v k : 0 <= v < 2 ^ 16 -> Z.lor v (k * 2 ^ 16) = v + k * 2 ^ 16.
Proof.
  intros H. assert (Z.land v (k * 2 ^ 16) = 0) as E.
  { apply Z.bits_inj'. intros n Hn. rewrite Z.land_spec, Z.bits_0. destruct (Z_lt_le_dec n 16).
    - rewrite Z.mul_pow2_bits_low by lia. apply andb_false_r.
    - rewrite (testbit_high 16 v) by lia. reflexivity. }
  rewrite Z.add_nocarry_lxor by exact E. symmetry. apply Z.lxor_lor. exact E.
Qed.
Lemma c_or_u16 v : 0 <= v < 2 ^ 16 ->
  c_or (c_u16, v) (c_i32, sgn 32 (v * 2 ^ 16)) = Ok (c_i32, Z.lor v (sgn 32 (v * 2 ^ 16))).
Proof.
  intros H. assert (exists k, sgn 32 (v * 2 ^ 16) = k * 2 ^ 16 /\ - 2 ^ 15 <= k < 2 ^ 15) as (k & -> & Hk).
  { unfold sgn. rewrite Z.mod_small by lia. destruct (Z.ltb_spec (v * 2 ^ 16) (2 ^ (32 - 1))).
    - exists v. split; [reflexivity|]. change (32 - 1) with 31 in *. lia.
    - exists (v - 2 ^ 16). change (32 - 1) with 31 in *. lia. }
  unfold c_or. rewrite (carith_gen c_i32) by (try reflexivity; apply fits_spec; cbn; lia).
  apply cres_ok. rewrite lor_shl16 by auto. apply fits_spec. cbn. lia.
Qed.
Lemma i_set_splat16_ok A s junk v : valid_arch A = true -> avail_int A 16 s = true -> 0 <= v < 2 ^ 16 ->
  i_set_splat16 A s junk v = Ok (splat 16 (rbits s) v).
Proof.
  intros HV HA Hv. unfold i_set_splat16, mm_broadcast, mm_cvtsi32. destruct s; cbn [rbits];
  lad HV HA ltac:(idtac; first [ ssleaf
   | rewrite c_shl_u16 by lia; cbn [bind]; rewrite c_or_u16 by lia; cbn [bind snd];
     rewrite (i_set_splat32_ok A R128) by auto; cbn [rbits];
     rewrite splat16_128 by lia; reflexivity ]).
Qed.
Lemma lane64_combine32 x v : lane 32 0 x = wrap 32 v -> lane 32 1 x = wrap 32 (Z.shiftr v 32) -> lane 64 0 x = wrap 64 v.
Proof.
  intros E0 E1. change 64 with (32 * 2). rewrite (lane_double 32 0 x) by lia.
  change (2 * 0) with 0. change (0 + 1) with 1. rewrite E0, E1. unfold wrap.
  rewrite Z.shiftr_div_pow2 by lia. change (2 ^ (32 * 2)) with (2 ^ 32 * 2 ^ 32).
  rewrite Z.rem_mul_r by lia. lia.
Qed.
Lemma lo64_ok A v : valid_arch A = true -> use_sse2 A = true -> exists x, lo64 A v = Ok x /\ reg 128 x /\ lane 64 0 x = wrap 64 v.
Proof.
  intros HV HS. unfold lo64, mm_cvtsi64, mm_cvtsi32. destruct (use_64 A).
  - eexists. split; [reflexivity|]. split; [apply wrap_reg; lia|apply lane0_wrap; lia].
  - rewrite (i_zip_ok A I32 R128) by (auto; apply wrap_reg; lia). eexists. split; [reflexivity|].
    split; [apply lsh_reg; reflexivity|].
    apply lane64_combine32; change (en I32) with 4; cbn [eb rbits].
    + pose proof (lane_lsh 32 128 4 (p_zip 4 false) [wrap 32 (wrap 32 v); wrap 32 (wrap 32 (Z.shiftr v 32))] 0 0
        eq_refl ltac:(lia) ltac:(split; reflexivity || lia)) as E.
      change (4 * 0 + 0) with 0 in E. rewrite E. cbn. rewrite !lane0_wrap by lia. apply wrap_wrap.
    + pose proof (lane_lsh 32 128 4 (p_zip 4 false) [wrap 32 (wrap 32 v); wrap 32 (wrap 32 (Z.shiftr v 32))] 0 1
        eq_refl ltac:(lia) ltac:(split; reflexivity || lia)) as E.
      change (4 * 0 + 1) with 1 in E. rewrite E. cbn. rewrite !lane0_wrap by lia. apply wrap_wrap.
Qed.
Lemma permute00_splat x : lsh 64 128 2 (p_permute2 0 0) [x] = splat 64 128 (lane 64 0 x).
Proof. rewrite splat_lane_lsh by reflexivity. apply lsh_extb; reflexivity. Qed.
Lemma msa_ins64 junk v : reg 128 junk ->
  lane 64 0 (msa_insert32 (msa_insert32 junk 0 (wrap 32 v)) 1 (wrap 32 (Z.shiftr v 32))) = wrap 64 v.
Proof.
  intros H. unfold msa_insert32. apply lane64_combine32; rewrite lane_pack by (reflexivity || lia || (split; reflexivity || lia)); cbn [Z.eqb].
  - rewrite lane_pack by (reflexivity || (split; reflexivity || lia)). cbn. rewrite !wrap_wrap. reflexivity.
  - apply wrap_wrap.
Qed.
Lemma msa_not64 A : valid_arch A = true -> use_msa A = true -> use_64 A = false.
Proof.
  unfold valid_arch. intros H HM. apply andb_prop in H as [_ H]. rewrite HM in H. destruct (use_64 A); [discriminate|reflexivity].
Qed.
Lemma i_set_splat64_ok A s junk v : valid_arch A = true -> avail_int A 64 s = true -> reg 128 junk ->
  i_set_splat64 A s junk v = Ok (splat 64 (rbits s) v).
Proof.
  intros HV HA Hj. unfold i_set_splat64, mm_broadcast. destruct s; cbn [rbits];
  ladt HV HA ltac:(idtac; first [ ssleaf
   | destruct (lo64_ok A v HV ltac:(auto)) as (x & -> & Hx & Ex); cbn [bind];
     rewrite (i_permute2_ok A I64 R128) by (auto; cbn [rbits]; first [lia|discriminate]); cbn [eb en rbits];
     rewrite permute00_splat, Ex, splat_wrap by reflexivity; reflexivity
   | destruct (lo64_ok A v HV ltac:(auto)) as (x & -> & Hx & Ex); cbn [bind];
     rewrite Ex, splat_wrap by reflexivity; reflexivity 
   | unfold msa_splat; rewrite msa_ins64, splat_wrap by auto; reflexivity]).
  match goal with H : use_msa A = true |- _ => apply (msa_not64 A HV) in H end. congruence.
Qed.

Lemma splat_pack w k R x : 0 < k -> wok (w * k) R = true -> wok w (w * k) = true -> wok w R = true ->
  pack (w * k) R (fun _ => splat w (w * k) x) = splat w R x.
Proof.
  intros Hk H1 H2 H3. destruct (wok_spec _ _ H3) as (Hw & _). destruct (wok_spec _ _ H2) as (_ & _ & E & _).
  apply (reg_lanes w R); [auto|apply pack_reg; auto|apply splat_reg; auto|]. intros i Hi.
  rewrite lane_pack_sub by auto. rewrite !lane_splat_g; auto.
  replace (w * k / w) with k by (symmetry; rewrite Z.mul_comm; apply Z.div_mul; lia). apply Z.mod_pos_bound; lia.
Qed.
Ltac fsleaf := first [ ssleaf | unfold msa_splat; change (0 mod _) with 0; rewrite lane0_first, splat_wrap by (auto; reflexivity); reflexivity
    | cbn [bind]; f_equal; apply (splat_pack 32 4 512); reflexivity
    | cbn [bind]; f_equal; apply (splat_pack 64 4 512); reflexivity ].
Lemma i_set_splat_f32_ok A s junk v : valid_arch A = true -> avail_flt A s = true ->
  i_set_splat_f32 A s junk v = Ok (splat 32 (rbits s) v).
Proof.
  intros HV HA. unfold i_set_splat_f32. destruct s; cbn [rbits]; lad HV HA ltac:(idtac; fsleaf).
Qed.
Lemma i_set_splat_f64_ok A s junk v : valid_arch A = true -> avail_flt A s = true ->
  i_set_splat_f64 A s junk v = Ok (splat 64 (rbits s) v).
Proof.
  intros HV HA. unfold i_set_splat_f64. destruct s; cbn [rbits]; lad HV HA ltac:(idtac; fsleaf).
Qed.
Definition splat_def (A : arch) (e : et) (s : rsz) (v : Z) : Prop :=
  e = I8 -> s = R128 -> use_sse2 A = true -> use_avx2 A = false -> v < 128.
Lemma i_set_splat_ok A e s junk v : valid_arch A = true -> avail_et A e s = true -> reg 128 junk ->
  0 <= v < 2 ^ eb e -> splat_def A e s v ->
  i_set_splat A e s junk v = Ok (splat (eb e) (rbits s) v).
Proof.
  intros HV HA Hj Hv HD. destruct e; cbn [i_set_splat eb avail_et] in *.
  - apply i_set_splat8_ok; auto.
  - apply i_set_splat16_ok; auto.
  - apply i_set_splat32_ok; auto.
  - apply i_set_splat64_ok; auto.
  - apply i_set_splat_f32_ok; auto.
  - apply i_set_splat_f64_ok; auto.
Qed.
Lemma splat_rt_ok A w s x : valid_arch A = true -> avail_int A (wb w) s = true ->
  (w = W8 -> s = R128 -> use_sse2 A = true -> use_avx2 A = false -> wrap 8 x < 128) ->
  splat_rt A w s x = Ok (splat (wb w) (rbits s) x).
Proof.
  intros HV HA HD. pose proof (wb_pos w). unfold splat_rt. rewrite i_set_splat_ok; auto.
  - f_equal. replace (eb (iet w)) with (wb w) by (destruct w; reflexivity). apply splat_wrap. apply wok_lib.
  - destruct w; exact HA.
  - replace (eb (iet w)) with (wb w) by (destruct w; reflexivity). apply wrap_range. lia.
  - intros E. destruct w; try discriminate. apply HD; reflexivity.
Qed.
