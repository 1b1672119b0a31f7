From Verif Require Export Model.Abs Proof.CmpP Proof.FloatsP2 Proof.ShiftP Proof.PermuteP Proof.ArithP.

Definition absv w R a := v1 w R (fun x => Z.abs (sgn w x)) a.

Lemma sgn_flip_neg w x : 0 < w -> 0 <= x < 2 ^ w -> (sgn w x <? 0) = (2 ^ (w - 1) <=? x).
Proof.
  intros Hw Hx. unfold sgn. rewrite Z.mod_small by lia.
  assert (2 ^ w = 2 * 2 ^ (w - 1)) by (rewrite <- Z.pow_succ_r by lia; f_equal; lia).
  destruct (Z.ltb_spec x (2 ^ (w - 1))); destruct (Z.leb_spec (2 ^ (w - 1)) x); lia.
Qed.

Section CN.
  Variables (A : arch) (w : ew) (s : rsz).
  Hypotheses (HV : valid_arch A = true) (HA : avail_int A (wb w) s = true).
  Local Notation W := (wb w). Local Notation R := (rbits s).
  Lemma cond_neg_ok a : reg R a ->
    cond_neg A w s a (tfv W R (fun i => sgn W (lane W i a) <? 0)) = Ok (absv W R a).
  Proof.
    intros Ha. unfold cond_neg. set (t := tfv W R _).
    assert (reg R t) by (apply tfv_reg; auto).
    rewrite i_bit_xor_ok by auto. cbn [bind]. rewrite i_sub_ok by auto. f_equal.
    pose proof (wb_pos w). pose proof (pow2_pos W ltac:(lia)).
    apply eq_v1; auto. intros i Hi. rewrite lane_v2 by auto. rewrite lane_lxor by lia. unfold t. rewrite lane_tfv by auto.
    pose proof (lane_range W i a ltac:(lia)) as Hx. set (x := lane W i a) in *. clearbody x.
    destruct (sgn W x <? 0) eqn:EL; unfold tf.
    - apply Z.ltb_lt in EL. rewrite Z.abs_neq by lia. rewrite lxor_ones_lnot by lia.
      rewrite wrap_opp_sgn by lia. unfold Z.sub, ones. rewrite wrap_add_l.
      apply eq_mod_wrap. exists (-1). unfold Z.lnot. lia.
    - apply Z.ltb_ge in EL. rewrite Z.abs_eq by lia. rewrite Z.lxor_0_r, Z.sub_0_r. symmetry. apply wrap_sgn. lia.
  Qed.
End CN.

(** The scalar loop *)
Lemma null_abs_ok w R a : wok (wb w) R = true ->
  (wb w < 32 \/ forall i, 0 <= i < R / wb w -> lane (wb w) i a <> imin w) ->
  null_abs (st w) R a = Ok (absv (wb w) R a).
Proof.
  intros HR Hm. unfold null_abs, absv, v1. apply (nloop_pack (st w)); auto.
  change (snd (st w)) with (wb w). intros i Hi. unfold el, c_abs. change (snd (st w)) with (wb w).
  pose proof (lane_range (wb w) i a ltac:(auto)) as Hx. revert Hm. set (x := lane (wb w) i a) in *. intros Hm.
  change (cconv (st w) x) with (sgn (wb w) x).
  pose proof (sgn_range (wb w) x ltac:(auto)) as HS.
  assert (wb w < 32 \/ sgn (wb w) x <> - 2 ^ (wb w - 1)) as Hm'.
  { destruct Hm as [Hm|Hm]; auto. right. intros E. apply (Hm i Hi). apply sgn_imin; auto. }
  assert (exists t, cres (fst (promote (st w, sgn (wb w) x))) (Z.abs (snd (promote (st w, sgn (wb w) x))))
            = Ok (t, Z.abs (sgn (wb w) x))) as [t Et].
  { exists (if wb w <? 32 then c_int else st w).
    destruct w; cbn [wb] in *; cbn [promote fst snd st wb Z.ltb Z.compare Pos.compare Pos.compare_cont] in *;
    apply cres_ok; fitz. }
  rewrite Et. eexists; split; reflexivity.
Qed.

(** comparison with zero gives the sign mask *)
Lemma sgn_zero w : 0 < w -> sgn w 0 = 0.
Proof.
  intros. pose proof (pow2_pos (w - 1) ltac:(lia)). unfold sgn. rewrite Z.mod_0_l.
  - cbn zeta. destruct (Z.ltb_spec 0 (2 ^ (w - 1))); lia.
  - pose proof (pow2_pos w ltac:(lia)). lia.
Qed.

Section Br.
  Variables (A : arch).
  Hypothesis (HV : valid_arch A = true).
  Lemma abs_sse2_ok w a : w <> W64 -> reg 128 a -> abs_sse2 A w a = Ok (absv (wb w) 128 a).
  Proof.
    intros Hw Ha. pose proof (wb_pos w).
    assert (HA : avail_int A (wb w) R128 = true) by reflexivity.
    unfold abs_sse2. rewrite konst_ok by auto. cbn [bind].
    assert (Hs : reg 128 (splat (wb w) 128 0)) by (apply (splat_reg (wb w) 128 0); apply (wok_lib w R128)).
    assert (HO : order_missing A w R128 = false) by (destruct w; try reflexivity; tauto).
    destruct (proj1 (Rok_ex _ _) (i_cmp_lt_ok A HV true w R128 a _ HA Ha Hs HO)) as (m & Em & Hm).
    cbn [rbits] in *. rewrite Em. cbn [bind].
    rewrite (unmask_ok A w R128 m _ HA Hm). cbn [bind].
    pose proof (cond_neg_ok A w R128 HV HA a Ha) as HC. cbn [rbits] in HC. rewrite <- HC. f_equal.
    apply (tfv_eq (wb w) 128); [apply (wok_lib w R128)|]. intros i Hi.
    rewrite lane_splat by (apply (wok_lib w R128) || auto). unfold lt_of. rewrite wrap_0, sgn_zero by lia. reflexivity.
  Qed.

  Lemma abs64_avx2_ok a : avail_int A 64 R256 = true -> reg 256 a -> abs64_avx2 A a = Ok (absv 64 256 a).
  Proof.
    intros HA Ha. unfold abs64_avx2. pose proof (cond_neg_ok A W64 R256 HV HA a Ha) as HC.
    cbn [rbits wb] in HC. rewrite <- HC. apply f_equal. apply eq_tfv; [reflexivity|apply v2_reg; reflexivity|].
    intros i Hi. unfold mm_cmpgt. rewrite lane_v2 by (reflexivity || auto). rewrite lane_of_zero.
    rewrite sgn_zero by lia. apply wrap_tf. lia.
  Qed.

  Lemma top_and a i : Z.land (lane 64 i a) (2 ^ 63) = if 2 ^ 63 <=? lane 64 i a then 2 ^ 63 else 0.
  Proof.
    pose proof (lane_range 64 i a ltac:(lia)) as Hx. set (x := lane 64 i a) in *. clearbody x.
    rewrite (bits_ext 64 (Z.land x (2 ^ 63)) (if Z.testbit x 63 then 2 ^ 63 else 0)).
    - rewrite Z.testbit_odd, Z.shiftr_div_pow2 by lia.
      destruct (Z.leb_spec (2 ^ 63) x).
      + replace (x / 2 ^ 63) with 1 by (apply (Z.div_unique x (2 ^ 63) 1 (x - 2 ^ 63)); lia). reflexivity.
      + rewrite Z.div_small by lia. reflexivity.
    - lia.
    - apply (land_reg 64); unfold reg; lia.
    - destruct (Z.testbit x 63); lia.
    - intros k Hk. rewrite Z.land_spec, Z.pow2_bits_eqb by lia.
      destruct (Z.eqb_spec 63 k) as [<-|Hn].
      + destruct (Z.testbit x 63); reflexivity.
      + rewrite andb_false_r. destruct (Z.testbit x 63); [rewrite Z.pow2_bits_false by lia|rewrite Z.bits_0]; reflexivity.
  Qed.

  Lemma abs64_sse2_ok a : use_sse2 A = true -> reg 128 a -> abs64_sse2 A a = Ok (absv 64 128 a).
  Proof.
    intros HX Ha. assert (HA : avail_int A (wb W64) R128 = true) by reflexivity.
    assert (HA2 : avail_int A (wb W32) R128 = true) by reflexivity.
    unfold abs64_sse2. rewrite konst_ok by auto. cbn [bind wb rbits].
    set (k := splat 64 128 _). assert (Hk : reg 128 k) by (apply splat_reg; reflexivity).
    rewrite (i_bit_and_ok A W64 R128 a k) by auto. cbn [bind].
    assert (Hl : reg 128 (Z.land a k)) by (apply land_reg; auto; lia).
    rewrite (i_shift_r_t_ok A false W32 R128 (Z.land a k) 1) by (auto; cbn; lia). cbn [bind rbits wb].
    set (t := shr_v false 32 128 1 (Z.land a k)).
    assert (Hf : avail_flt A R128 = true) by reflexivity.
    destruct (proj1 (Rok_ex _ _) (f_cmp_neq_ok A true R128 HV Hf t 0)) as (m & Em & Hm).
    rewrite Em. cbn [bind]. rewrite (unmask_f_ok A true R128 Hf m _ Hm). cbn [bind].
    pose proof (cond_neg_ok A W64 R128 HV HA a Ha) as HC. cbn [rbits wb] in HC. rewrite <- HC. f_equal.
    apply (tfv_eq 64 128); [reflexivity|]. intros i Hi. change (fw true) with 64.
    assert (ftz A true = false) as -> by (clear - HV HX; unfold ftz; fam HV; reflexivity).
    cbn [fz]. rewrite lane_of_zero.
    assert (HT : lane 64 i t = if 2 ^ 63 <=? lane 64 i a then 2 ^ 62 else 0).
    { change 64 with (32 * 2) at 1. rewrite lane_double by lia. unfold t, shr_v.
      change (128 / 64) with 2 in Hi.
      rewrite !lane_v1 by (reflexivity || (change (128/32) with 4; lia)).
      assert (HL : forall j, 0 <= j < 2 -> lane 32 (2 * i + j) (Z.land a k) = lane 32 j (if 2 ^ 63 <=? lane 64 i a then 2 ^ 63 else 0)).
      { intros j Hj. rewrite <- top_and. replace (2 * i + j) with (i * 2 + j) by lia.
        rewrite <- (lane_lane 32 2 i j) by lia. change (32 * 2) with 64. f_equal. rewrite lane_land by lia. f_equal.
        unfold k. rewrite lane_splat by (reflexivity || (change (128/64) with 2; lia)). reflexivity. }
      pose proof (HL 0 ltac:(lia)) as H0. pose proof (HL 1 ltac:(lia)) as H1. rewrite Z.add_0_r in H0.
      rewrite H0, H1. destruct (2 ^ 63 <=? lane 64 i a); vm_compute; reflexivity. }
    rewrite HT, sgn_flip_neg by (lia || (apply lane_range; lia)). change (64 - 1) with 63.
    destruct (2 ^ 63 <=? lane 64 i a); vm_compute; reflexivity.
  Qed.

  Lemma abs64_neon_ok a : reg 128 a -> abs64_neon A a = Ok (absv 64 128 a).
  Proof.
    intros Ha. assert (HA : avail_int A (wb W64) R128 = true) by reflexivity.
    assert (HA2 : avail_int A (wb W32) R128 = true) by reflexivity.
    unfold abs64_neon.
    rewrite (i_shift_r_t_ok A false W64 R128 a 63) by (auto; cbn; lia). cbn [bind rbits wb].
    rewrite konst_ok by auto. cbn [bind rbits wb]. set (z := shr_v false 64 128 63 a).
    assert (Hz : reg 128 z) by (apply v1_reg; reflexivity).
    assert (Hk : reg 128 (splat 32 128 0)) by (apply splat_reg; reflexivity).
    destruct (proj1 (Rok_ex _ _) (i_cmp_eq_ok A HV W32 R128 z _ HA2 Hz Hk)) as (m & Em & Hm).
    rewrite Em. cbn [bind]. rewrite (unmask_ok A W32 R128 m _ HA2 Hm). cbn [bind rbits wb].
    match goal with |- context [i_permute4 _ _ _ _ _ _ _ ?e] => set (u := e) end.
    assert (Hu : reg 128 u) by (apply (tfv_reg 32 128); reflexivity).
    rewrite (i_permute4_ok A I32 R128 0 0 2 2 u) by (auto; lia). cbn [bind rbits eb].
    set (v := lsh _ _ _ _ _). assert (Hv : reg 128 v) by (apply lsh_reg; reflexivity).
    rewrite (i_bit_not_ok A W32 R128 v) by auto. cbn [bind].
    pose proof (cond_neg_ok A W64 R128 HV HA a Ha) as HC. cbn [rbits wb] in HC. rewrite <- HC. f_equal.
    apply eq_tfv; [reflexivity|apply (rnot_reg 128); [lia|exact Hv]|]. intros i Hi. change (128 / 64) with 2 in Hi. change (rbits R128) with 128.
    change 64 with (32 * 2) at 1. rewrite lane_double by lia.
    rewrite !(lane_rnot 32 128) by (reflexivity || (change (128 / 32) with 4; lia)).
    assert (Hj : forall j, 0 <= j < 2 -> lane 32 (2 * i + j) v = tf 32 (negb (2 ^ 63 <=? lane 64 i a))).
    { intros j Hj. assert (2 * i + j = 4 * 0 + (2 * i + j)) as -> by lia. unfold v.
      rewrite lane_lsh by (reflexivity || (change (128 / (4 * 32)) with 1; lia) || lia).
      assert (HP : p_permute4 0 0 2 2 (2 * i + j) = Some (0%nat, 2 * i)).
      { assert (Hc : (i = 0 \/ i = 1) /\ (j = 0 \/ j = 1)) by lia.
        destruct Hc as [[-> | ->] [-> | ->]]; reflexivity. }
      rewrite HP. cbn [nth]. replace (4 * 0 + 2 * i) with (2 * i) by lia. unfold u.
      fold (tfv 32 128 (fun i => lane 32 i z =? lane 32 i (splat 32 128 0))). rewrite (lane_tfv 32 128) by (reflexivity || (change (128 / 32) with 4; lia)). f_equal.
      rewrite lane_splat by (reflexivity || (change (128 / 32) with 4; lia)).
      replace (lane 32 (2 * i) z) with (lane 32 0 (lane 64 i z)).
      2:{ change 64 with (32 * 2). rewrite lane_lane by lia. f_equal. lia. }
      unfold z, shr_v. rewrite lane_v1 by (reflexivity || (change (128 / 64) with 2; lia)).
      pose proof (lane_range 64 i a ltac:(lia)) as Hx. set (x := lane 64 i a) in *. clearbody x.
      rewrite Z.shiftr_div_pow2 by lia. destruct (Z.leb_spec (2 ^ 63) x).
      - replace (x / 2 ^ 63) with 1 by (apply (Z.div_unique x (2 ^ 63) 1 (x - 2 ^ 63)); lia). vm_compute. reflexivity.
      - rewrite Z.div_small by lia. vm_compute. reflexivity. }
    pose proof (Hj 0 ltac:(lia)) as H0. pose proof (Hj 1 ltac:(lia)) as H1. rewrite Z.add_0_r in H0.
    rewrite H0, H1. rewrite sgn_flip_neg by (lia || (apply lane_range; lia)). change (64 - 1) with 63.
    destruct (2 ^ 63 <=? lane 64 i a); vm_compute; reflexivity.
  Qed.
End Br.

Theorem i_iabs_ok A w s a : valid_arch A = true -> avail_int A (wb w) s = true -> reg (rbits s) a ->
  (scalar A w s = true -> 32 <= wb w -> forall i, 0 <= i < rbits s / wb w -> lane (wb w) i a <> imin w) ->
  i_iabs A w s a = Ok (absv (wb w) (rbits s) a).
Proof.
  intros HV HA Ha Hm.
  assert (HM : forall w', s = R128 -> msa_add_a (wb w') a 0 = absv (wb w') 128 a).
  { intros w' Es. pose proof (wb_pos w'). unfold msa_add_a, absv. apply eq_v1; [apply (wok_lib w' R128)|apply v2_reg; apply (wok_lib w' R128)|].
    intros i Hi. rewrite lane_v2 by (apply (wok_lib w' R128) || auto). rewrite lane_of_zero, sgn_zero by lia.
    cbn [Z.abs]. rewrite Z.add_0_r. reflexivity. }
  unfold i_iabs. unfold scalar in Hm.
  destruct s, w; cbn [nat512 wb rbits] in *;
  lad HV HA ltac:(idtac; lazymatch goal with
    | |- Ok (msa_add_a ?k _ _) = _ => apply f_equal; (exact (HM W8 eq_refl) || exact (HM W16 eq_refl) || exact (HM W32 eq_refl) || exact (HM W64 eq_refl))
    | |- Ok _ = Ok _ => reflexivity
    | |- abs_sse2 _ ?w _ = _ => apply (abs_sse2_ok A HV w); [discriminate|exact Ha]
    | |- abs64_sse2 _ _ = _ => apply abs64_sse2_ok; [exact HV|assumption|exact Ha]
    | |- abs64_neon _ _ = _ => apply abs64_neon_ok; [exact HV|exact Ha]
    | |- abs64_avx2 _ _ = _ => apply abs64_avx2_ok; [exact HV|exact HA|exact Ha]
    | |- null_abs (st ?w) _ _ = _ =>
        apply (null_abs_ok w 128); [reflexivity|];
        first [left; reflexivity | right; apply Hm; [rw_flags; reflexivity | cbn; lia]]
    end).
Qed.
