From Verif Require Export Proof.FloatsP2.
From Coq Require Import Lia.

Section S.
  Variable d : bool.
  Notation w := (fw d).
  Let Hw : 0 < w - 1. Proof. destruct d; reflexivity. Qed.
  Let H2 : 2 ^ w = 2 * 2 ^ (w - 1). Proof. destruct d; reflexivity. Qed.
  Let P2 : 0 < 2 ^ (w - 1) := pow2_pos _ (Z.lt_le_incl _ _ Hw).

  Lemma f_split x : 0 <= x < 2 ^ w -> x = f_sign w (f_neg w x) + f_mag w x.
  Proof.
    intros Hx. unfold f_sign, f_neg, f_mag. destruct (Z.leb_spec (2 ^ (w - 1)) x).
    - replace x with (x - 2 ^ (w - 1) + 1 * 2 ^ (w - 1)) at 2 by lia. rewrite Z.mod_add by lia.
      rewrite Z.mod_small by lia. lia.
    - rewrite Z.mod_small by lia. lia.
  Qed.
  Lemma f_neg_testbit x : 0 <= x < 2 ^ w -> f_neg w x = Z.testbit x (w - 1).
  Proof.
    intros Hx. rewrite Z.testbit_odd, Z.shiftr_div_pow2 by lia. unfold f_neg.
    destruct (Z.leb_spec (2 ^ (w - 1)) x).
    - replace (x / 2 ^ (w - 1)) with 1; [reflexivity|]. apply (Z.div_unique x (2 ^ (w - 1)) 1 (x - 2 ^ (w - 1))); lia.
    - rewrite Z.div_small by lia. reflexivity.
  Qed.
  Lemma f_mag_testbit x i : 0 <= i -> Z.testbit (f_mag w x) i = Z.testbit x i && (i <? w - 1).
  Proof.
    intros Hi. unfold f_mag. destruct (Z.ltb_spec i (w - 1)).
    - rewrite Z.mod_pow2_bits_low by lia. rewrite andb_true_r. reflexivity.
    - rewrite Z.mod_pow2_bits_high by lia. rewrite andb_false_r. reflexivity.
  Qed.
  Lemma f_sign_testbit b i : 0 <= i -> Z.testbit (f_sign w b) i = b && (i =? w - 1).
  Proof.
    intros Hi. unfold f_sign. destruct b; [|apply Z.bits_0]. rewrite Z.pow2_bits_eqb by lia. apply Z.eqb_sym.
  Qed.
  Lemma f_mag_ran x : 0 <= f_mag w x < 2 ^ (w - 1).
  Proof. apply Z.mod_pos_bound. auto. Qed.
  Lemma f_sign_ran b : 0 <= f_sign w b < 2 ^ w.
  Proof. unfold f_sign. destruct b; lia. Qed.
  (** sign and magnitude put together *)
  Lemma f_join_testbit b x i : 0 <= i -> Z.testbit (f_sign w b + f_mag w x) i =
    if i =? w - 1 then b else Z.testbit x i && (i <? w - 1).
  Proof.
    intros Hi. assert (E : f_sign w b + f_mag w x = Z.lor (f_sign w b) (f_mag w x)).
    { rewrite Z.add_nocarry_lxor, Z.lxor_lor.
      - reflexivity.
      - apply Z.bits_inj'. intros k Hk. rewrite Z.bits_0, Z.land_spec, f_sign_testbit, f_mag_testbit by auto.
        destruct (Z.eqb_spec k (w - 1)); [|rewrite andb_false_r; reflexivity].
        destruct (Z.ltb_spec k (w - 1)); [lia|]. rewrite andb_false_r, andb_false_r. reflexivity.
      - apply Z.bits_inj'. intros k Hk. rewrite Z.bits_0, Z.land_spec, f_sign_testbit, f_mag_testbit by auto.
        destruct (Z.eqb_spec k (w - 1)); [|rewrite andb_false_r; reflexivity].
        destruct (Z.ltb_spec k (w - 1)); [lia|]. rewrite andb_false_r, andb_false_r. reflexivity. }
    rewrite E, Z.lor_spec, f_sign_testbit, f_mag_testbit by auto.
    destruct (Z.eqb_spec i (w - 1)).
    - destruct (Z.ltb_spec i (w - 1)); [lia|]. rewrite andb_true_r, andb_false_r, orb_false_r. reflexivity.
    - rewrite andb_false_r. reflexivity.
  Qed.
  Lemma f_join_ran b x : 0 <= f_sign w b + f_mag w x < 2 ^ w.
  Proof. pose proof (f_mag_ran x). unfold f_sign. destruct b; lia. Qed.
  Lemma high0 x i : 0 <= x < 2 ^ w -> w <= i -> Z.testbit x i = false.
  Proof.
    intros Hx Hi. rewrite <- (Z.mod_small x (2 ^ w)) by auto. apply Z.mod_pow2_bits_high. lia.
  Qed.
  Lemma f_opp_join x : 0 <= x < 2 ^ w -> f_opp w x = f_sign w (negb (f_neg w x)) + f_mag w x.
  Proof.
    intros Hx. apply Z.bits_inj'. intros i Hi. unfold f_opp. rewrite f_join_testbit, Z.lxor_spec, Z.pow2_bits_eqb by lia.
    rewrite f_neg_testbit by auto. rewrite (Z.eqb_sym (w - 1) i). destruct (Z.eqb_spec i (w - 1)).
    - subst i. apply xorb_true_r.
    - rewrite xorb_false_r. destruct (Z.ltb_spec i (w - 1)); [rewrite andb_true_r; reflexivity|].
      rewrite andb_false_r. apply high0; auto. lia.
  Qed.
  Lemma f_opp_ran x : 0 <= x < 2 ^ w -> 0 <= f_opp w x < 2 ^ w.
  Proof. intros Hx. rewrite f_opp_join by auto. apply f_join_ran. Qed.
  Lemma f_mag_join b x : f_mag w (f_sign w b + f_mag w x) = f_mag w x.
  Proof.
    apply Z.bits_inj'. intros i Hi. rewrite f_mag_testbit, f_join_testbit, f_mag_testbit by auto.
    destruct (Z.eqb_spec i (w - 1)); destruct (Z.ltb_spec i (w - 1)); rewrite ?andb_true_r, ?andb_false_r; try lia; auto.
  Qed.
  Lemma f_neg_join b x : f_neg w (f_sign w b + f_mag w x) = b.
  Proof. rewrite f_neg_testbit by apply f_join_ran. rewrite f_join_testbit, Z.eqb_refl by lia. reflexivity. Qed.
  Lemma f_mag_opp x : 0 <= x < 2 ^ w -> f_mag w (f_opp w x) = f_mag w x.
  Proof. intros Hx. rewrite f_opp_join by auto. apply f_mag_join. Qed.
  Lemma f_neg_opp x : 0 <= x < 2 ^ w -> f_neg w (f_opp w x) = negb (f_neg w x).
  Proof. intros Hx. rewrite f_opp_join by auto. apply f_neg_join. Qed.
  Lemma f_val_opp x : 0 <= x < 2 ^ w -> f_val w (f_opp w x) = - f_val w x.
  Proof.
    intros Hx. unfold f_val, f_abs_val. rewrite f_mag_opp, f_neg_opp by auto. destruct (f_neg w x); cbn [negb]; lia.
  Qed.
  Lemma land_mag x : 0 <= x < 2 ^ w -> Z.land x (2 ^ (w - 1) - 1) = f_mag w x.
  Proof.
    intros Hx. rewrite Z.sub_1_r, <- Z.ones_equiv, Z.land_ones by lia. reflexivity.
  Qed.
  Lemma land_sign x : 0 <= x < 2 ^ w -> Z.land x (2 ^ (w - 1)) = f_sign w (f_neg w x).
  Proof.
    intros Hx. apply Z.bits_inj'. intros i Hi. rewrite Z.land_spec, f_sign_testbit, Z.pow2_bits_eqb by lia.
    rewrite f_neg_testbit by auto. rewrite (Z.eqb_sym (w - 1) i). destruct (Z.eqb_spec i (w - 1)); [subst; reflexivity|].
    rewrite !andb_false_r. reflexivity.
  Qed.
  Lemma bsel_sign x y : 0 <= x < 2 ^ w -> 0 <= y < 2 ^ w ->
    bsel x y (2 ^ (w - 1)) = f_sign w (f_neg w x) + f_mag w y.
  Proof.
    intros Hx Hy. apply Z.bits_inj'. intros i Hi. rewrite testbit_bsel, f_join_testbit, Z.pow2_bits_eqb by lia.
    rewrite (Z.eqb_sym (w - 1) i). destruct (Z.eqb_spec i (w - 1)).
    - subst. symmetry. apply f_neg_testbit; auto.
    - destruct (Z.ltb_spec i (w - 1)); [rewrite andb_true_r; reflexivity|]. rewrite andb_false_r. apply high0; auto; lia.
  Qed.
  (** x - x: +0 exactly for finite x *)
  Lemma f_sub_self x : 0 <= x < 2 ^ w -> f_sub w x x = if f_finite w x then 0 else f_qnan w.
  Proof.
    intros Hx. unfold f_sub, f_add, f_unord, f_isinf, f_finite, f_nan. rewrite !f_mag_opp, f_neg_opp, f_val_opp by auto.
    destruct (Z.ltb_spec (f_inf w) (f_mag w x)); cbn [orb].
    - destruct (Z.ltb_spec (f_mag w x) (f_inf w)); [lia|reflexivity].
    - destruct (Z.eqb_spec (f_mag w x) (f_inf w)).
      + destruct (f_neg w x); cbn [negb Bool.eqb andb]; destruct (Z.ltb_spec (f_mag w x) (f_inf w)); try lia; reflexivity.
      + destruct (Z.ltb_spec (f_mag w x) (f_inf w)); [|lia].
        replace (f_val w x + - f_val w x) with 0 by lia. cbn [Z.eqb]. rewrite andb_negb_r. reflexivity.
  Qed.
  Lemma f_qnan_nan : f_nan w (f_qnan w) = true.
  Proof. destruct d; reflexivity. Qed.
  Lemma flush_qnan : f_flush w (f_qnan w) = f_qnan w.
  Proof. destruct d; reflexivity. Qed.
  Lemma f_flush_ran x : 0 <= x < 2 ^ w -> 0 <= f_flush w x < 2 ^ w.
  Proof. intros. unfold f_flush. destruct (f_denormal w x); auto. apply f_sign_ran. Qed.
  Lemma f_finite_flush x : f_finite w (f_flush w x) = f_finite w x.
  Proof.
    unfold f_finite. rewrite (f_mag_flush d R128). unfold f_denormal. destruct (fmant_lt d R128) as (F1 & F2 & F3).
    destruct (Z.ltb_spec 0 (f_mag w x)); cbn [andb]; auto.
    destruct (Z.ltb_spec (f_mag w x) (2 ^ fmant w)); cbn [andb]; auto.
    destruct (Z.ltb_spec 0 (f_inf w)), (Z.ltb_spec (f_mag w x) (f_inf w)); auto; lia.
  Qed.
  Lemma f_eq_sub_self x : 0 <= x < 2 ^ w -> f_eq w (f_sub w x x) 0 = f_finite w x.
  Proof.
    intros Hx. rewrite f_sub_self by auto. destruct (f_finite w x); [destruct d; reflexivity|].
    unfold f_eq, f_unord. rewrite f_qnan_nan. reflexivity.
  Qed.
  Lemma rne_nonneg n k : 0 <= n -> 0 <= rne n k.
  Proof.
    intros Hn. unfold rne. assert (0 <= n / 2 ^ k).
    { destruct (Z.ltb_spec k 0); [rewrite Z.pow_neg_r, Zdiv_0_r by lia; lia|]. apply Z.div_pos; auto. apply pow2_pos; auto. }
    destruct (_ <? _); [lia|]. destruct (_ <? _); [lia|]. destruct (Z.even _); lia.
  Qed.
  Lemma f_round_ran n k : 0 <= n -> 0 <= f_round w n k < 2 ^ (w - 1).
  Proof.
    intros Hn. destruct (fmant_lt d R128) as (F1 & F2 & F3). unfold f_round.
    set (q := Z.max 0 _). assert (0 <= q) by lia. pose proof (rne_nonneg n (k + q) Hn).
    assert (0 <= q * 2 ^ fmant w + rne n (k + q)) by nia. 
    assert (0 < 2 ^ (fmant w - 1)) by (destruct d; reflexivity). lia.
  Qed.
  Lemma f_qnan_ran : 0 <= f_qnan w < 2 ^ w.
  Proof. destruct d; vm_compute; intuition discriminate. Qed.
  Lemma f_add_ran x y : 0 <= x < 2 ^ w -> 0 <= y < 2 ^ w -> 0 <= f_add w x y < 2 ^ w.
  Proof.
    intros Hx Hy. pose proof f_qnan_ran. unfold f_add.
    destruct (f_unord w x y); auto. destruct (f_isinf w x); [destruct (f_isinf w y && _); auto|].
    destruct (f_isinf w y); auto. destruct (_ =? 0); [apply f_sign_ran|].
    pose proof (f_round_ran (Z.abs (f_val w x + f_val w y)) 0 ltac:(lia)). unfold f_sign. destruct (_ <? 0); lia.
  Qed.
  Lemma f_sub_ran x y : 0 <= x < 2 ^ w -> 0 <= y < 2 ^ w -> 0 <= f_sub w x y < 2 ^ w.
  Proof.
    intros Hx Hy. unfold f_sub. destruct (f_nan w y); [apply f_qnan_ran|]. apply f_add_ran; auto. apply f_opp_ran; auto.
  Qed.
End S.

Section F.
  Variables (A : arch) (d : bool) (s : rsz).
  Hypotheses (HV : valid_arch A = true) (HA : avail_flt A s = true).
  Notation w := (fw d).
  Notation R := (rbits s).
  Notation z := (fz (ftz A d) w).
  Let Hw : 0 < w := fw_pos d.
  Let P2 : 0 < 2 ^ (w - 1). Proof. destruct d; reflexivity. Qed.
  Let H2 : 2 ^ w = 2 * 2 ^ (w - 1). Proof. destruct d; reflexivity. Qed.
  Lemma fz_ran x : 0 <= x < 2 ^ w -> 0 <= z x < 2 ^ w.
  Proof. intros. unfold fz. destruct (ftz A d); auto. apply f_flush_ran; auto. Qed.

  Lemma fconst_reg v : reg R (fconst d s v).
  Proof. apply splat_reg. apply fwok. Qed.
  Lemma fl_same {X} (v : X) (nul x86 neon ppc msa x256 x512 : res X) :
    (s = R128 -> nul = Ok v /\ x86 = Ok v /\ neon = Ok v /\ ppc = Ok v /\ msa = Ok v) -> (s = R256 -> x256 = Ok v) -> (s = R512 -> x512 = Ok v) ->
    fl_sizes A s (fl_ladder A d nul x86 neon ppc msa) x256 x512 = Ok v.
  Proof.
    intros H1 H3 H5. apply (fl_sizes_P A s (fun r => r = Ok v)); auto. intros Es. destruct (H1 Es) as (E1 & E2 & E3 & E4 & E5).
    apply (fl_cases A d (fun r => r = Ok v)); auto.
  Qed.
  Theorem i_fabs_ok a : reg R a -> i_fabs A d s a = Ok (v1 w R (f_mag w) a).
  Proof.
    intros Ha. unfold i_fabs. rewrite f_bit_and_ok by (auto using fconst_reg).
    assert (E : Z.land a (fconst d s (2 ^ (w - 1) - 1)) = v1 w R (f_mag w) a).
    { apply eq_v1; auto. { apply land_reg; auto; [destruct s; cbn; lia|apply fconst_reg]. }
      intros i Hi. rewrite lane_land by lia. unfold fconst. rewrite lane_splat by auto.
      rewrite (wrap_small w (2 ^ (w - 1) - 1)) by lia. rewrite land_mag by auto. symmetry. apply wrap_small. pose proof (f_mag_ran d (lane w i a)). lia. }
    rewrite E. apply fl_same; auto. intros Es. unfold clr_sign. rewrite Es. auto.
  Qed.
  Theorem i_fneg_ok a : reg R a -> i_fneg A d s a = Ok (v1 w R (f_opp w) a).
  Proof.
    intros Ha. unfold i_fneg. rewrite f_bit_xor_ok by (auto using fconst_reg).
    assert (E : Z.lxor a (fconst d s (2 ^ (w - 1))) = v1 w R (f_opp w) a).
    { pose proof (fconst_reg (2 ^ (w - 1))). apply eq_v1; auto. 
      intros i Hi. rewrite lane_lxor by lia. unfold fconst. rewrite lane_splat by auto.
      rewrite (wrap_small w (2 ^ (w - 1))) by lia. symmetry. apply wrap_small. apply f_opp_ran; auto. }
    rewrite E. apply fl_same; auto. intros Es. unfold flip_sign. rewrite Es. auto.
  Qed.
  Theorem i_sign_ok a : reg R a -> i_sign A d s a = Ok (v1 w R (fun x => f_sign w (f_neg w x)) a).
  Proof.
    intros Ha. unfold i_sign. rewrite f_bit_and_ok by (auto using fconst_reg). f_equal.
    apply eq_v1; auto. { apply land_reg; auto; [destruct s; cbn; lia|apply fconst_reg]. }
    intros i Hi. rewrite lane_land by lia. unfold fconst. rewrite lane_splat by auto.
    rewrite (wrap_small w (2 ^ (w - 1))) by lia. rewrite land_sign by auto. symmetry. apply wrap_small, f_sign_ran.
  Qed.
  Theorem i_copysign_ok a b : reg R a -> reg R b ->
    i_copysign A d s a b = Ok (v2 w R (fun x y => f_sign w (f_neg w y) + f_mag w x) a b).
  Proof.
    intros Ha Hb. unfold i_copysign. rewrite f_bit_select_ok by (auto using fconst_reg). f_equal.
    apply eq_v2; auto. { pose proof (fconst_reg (2 ^ (w - 1))). auto using bsel_reg. }
    intros i Hi. rewrite lane_bsel by lia. unfold fconst. rewrite lane_splat by auto.
    rewrite (wrap_small w (2 ^ (w - 1))) by lia. rewrite bsel_sign by auto. symmetry. apply wrap_small, f_join_ran.
  Qed.
  Theorem farith_ok op a b : farith op A d s a b = Ok (v2 w R (fun x y => z (op w (z x) (z y))) a b).
  Proof.
    unfold farith.
    assert (Hx : ftz A d = false -> v2 w R (op w) a b = v2 w R (fun x y => z (op w (z x) (z y))) a b).
    { intros E. unfold fz. rewrite E. reflexivity. }
    set (T := v2 w R (fun x y => z (op w (z x) (z y))) a b) in *.
    apply (fl_sizes_P A s (fun r => r = Ok T)); auto; intros Es.
    - assert (E1 : 128 = R) by (rewrite Es; reflexivity). rewrite E1.
      apply (fl_cases A d (fun r => r = Ok T)); auto; intros H; f_equal; try (apply Hx; apply H). intros; f_equal; auto.
    - intros Hav. assert (E1 : 256 = R) by (rewrite Es; reflexivity). rewrite E1. f_equal. apply Hx. apply ftz_wide with (s := s); auto. rewrite Es; discriminate.
    - intros Hav. assert (E1 : 512 = R) by (rewrite Es; reflexivity). rewrite E1. f_equal. apply Hx. apply ftz_wide with (s := s); auto. rewrite Es; discriminate.
  Qed.
  Theorem i_isfinite_ok a : reg R a -> Rok (frel A d s (fun i => f_finite w (lane w i a))) (i_isfinite A d s a).
  Proof.
    intros Ha. unfold i_isfinite. destruct (use_null A) eqn:EN.
    - assert (Es : s = R128).
      { destruct s; auto; cbn in HA; vimp HV. }
      apply null_fcmp_ok; auto.
      + rewrite (mk_flt_eq A d s HV HA), Es. assert (E1 : null128 A d = true) by (unfold null128; rewrite EN; reflexivity).
        rewrite (null128_vl A d HV E1), E1. reflexivity.
      + intros i Hi. unfold f_nan, f_isinf, f_finite. destruct (Z.ltb_spec (f_inf w) (f_mag w (lane w i a))), (Z.eqb_spec (f_mag w (lane w i a)) (f_inf w)),
          (Z.ltb_spec (f_mag w (lane w i a)) (f_inf w)); cbn [orb negb]; auto; lia.
    - unfold i_fsub. rewrite farith_ok. cbn [bind]. eapply Rfrel_ext; [|apply (fcmp_d_ok A d s HV HA f_eq f_eq); reflexivity].
      intros i Hi. cbv beta. rewrite lane_v2 by auto. rewrite lane_of_zero. set (x := lane w i a).
      assert (Hx : 0 <= x < 2 ^ w) by apply flane.
      unfold fz. destruct (ftz A d).
      + pose proof (f_flush_ran d x Hx) as Hf. rewrite <- (f_finite_flush d x). rewrite f_sub_self by auto.
        destruct (f_finite w (f_flush w x)); [destruct d; reflexivity|]. rewrite flush_qnan.
        rewrite (wrap_small w (f_qnan w)) by (destruct d; vm_compute; intuition discriminate). rewrite flush_qnan.
        unfold f_eq, f_unord. rewrite f_qnan_nan. reflexivity.
      + rewrite wrap_small.
        * apply f_eq_sub_self; auto.
        * rewrite f_sub_self by auto. destruct (f_finite w x); destruct d; vm_compute; intuition discriminate.
  Qed.
End F.
