(** Float vectors: bitwise operations and masks (C11, C34), selection (C12), comparisons (C08,
    C41), NaN and finiteness tests and sign operations (C36).  Lanes are IEEE bit patterns
    (Spec/Floats.v).  [d]: false = float32, true = float64. *)
From Verif Require Import Proof.FloatsP3.
From Coq Require Import Lia.

Lemma Rfeq {X} (x y : X) : x = y -> Ok x = Ok y. Proof. intros ->. reflexivity. Qed.

Section T.
  Variables (A : arch) (d : bool) (s : rsz).
  Hypotheses (HV : valid_arch A = true) (HA : avail_flt A s = true).
  Notation w := (fw d).
  Notation K := (mk_flt A d s).
  Notation E := (few d).
  Let HW : wok w (rbits s) = true := fwok d s.
  Let Hw : 0 < w := fw_pos d.
  Let P2 : 0 < 2 ^ (w - 1). Proof. destruct d; reflexivity. Qed.
  Let H2 : 2 ^ w = 2 * 2 ^ (w - 1). Proof. destruct d; reflexivity. Qed.

  (** C11 *)
  Theorem bit_and_float_spec : computes2 w s (bit_and_f A d s) Z.land.
  Proof.
    apply lift2; auto. { intros x y Hx Hy. apply land_reg; auto; lia. }
    intros a b Ha Hb. rewrite f_bit_and_ok by auto. apply Rfeq, land_v2; auto.
  Qed.
  Theorem bit_or_float_spec : computes2 w s (bit_or_f A d s) Z.lor.
  Proof.
    apply lift2; auto. { intros x y Hx Hy. apply lor_reg'; auto. }
    intros a b Ha Hb. rewrite f_bit_or_ok by auto. apply Rfeq, lor_v2; auto.
  Qed.
  Theorem bit_xor_float_spec : computes2 w s (bit_xor_f A d s) Z.lxor.
  Proof.
    apply lift2; auto. { intros x y Hx Hy. apply lxor_reg'; auto. }
    intros a b Ha Hb. rewrite f_bit_xor_ok by auto. apply Rfeq, lxor_v2; auto.
  Qed.
  Theorem bit_andnot_float_spec : computes2 w s (bit_andnot_f A d s) Z.ldiff.
  Proof.
    apply lift2; auto. { intros x y Hx Hy. apply ldiff_reg'; auto. }
    intros a b Ha Hb. rewrite f_bit_andnot_ok by auto. apply Rfeq. apply (ldiff_v2 w (rbits s)); auto.
  Qed.
  Theorem bit_not_float_spec : computes1 w s (bit_not_f A d s) (fun x => (Z.lnot x) mod 2 ^ w).
  Proof.
    apply (lift1w _ _ _ Z.lnot); auto; try reflexivity. intros a Ha. rewrite f_bit_not_ok by auto. apply Rfeq. symmetry. apply (lnot_v1 w); auto.
  Qed.
  Theorem bit_and_float_vm_spec : computesVM_k K E s (bit_and_f_vm A d s) (fun x b => if b then x else 0).
  Proof. apply liftVM_k; [intros x [|] Hx; auto; split; [lia|apply pow2_pos; rewrite fwb; lia]|]. intros. apply f_bit_and_vm_ok; auto. Qed.
  Theorem bit_andnot_float_vm_spec : computesVM_k K E s (bit_andnot_f_vm A d s) (fun x b => if b then 0 else x).
  Proof. apply liftVM_k; [intros x [|] Hx; auto; split; [lia|apply pow2_pos; rewrite fwb; lia]|]. intros. apply f_bit_andnot_vm_ok; auto. Qed.
  Theorem bit_and_float_mm_spec : computesMM2_k K E s (bit_and_f_mm A d s) andb.
  Proof. apply liftMM2_k. intros. apply f_bit_and_mm_ok; auto. Qed.
  Theorem bit_andnot_float_mm_spec : computesMM2_k K E s (bit_andnot_f_mm A d s) (fun x y => x && negb y).
  Proof. apply liftMM2_k. intros. apply f_bit_andnot_mm_ok; auto. Qed.
  Theorem bit_or_float_mm_spec : computesMM2_k K E s (bit_or_f_mm A d s) orb.
  Proof. apply liftMM2_k. intros. apply f_bit_or_mm_ok; auto. Qed.
  Theorem bit_xor_float_mm_spec : computesMM2_k K E s (bit_xor_f_mm A d s) xorb.
  Proof. apply liftMM2_k. intros. apply f_bit_xor_mm_ok; auto. Qed.
  Theorem bit_not_float_m_spec : computesMM1_k K E s (bit_not_f_m A d s) negb.
  Proof. apply liftMM1_k. intros. apply f_bit_not_m_ok; auto. Qed.
  (** C34 *)
  Theorem to_mask_float_spec : computesTM_k K E s (to_mask_f A d s).
  Proof. apply liftTM_k. intros. apply f_to_mask_ok; auto. Qed.
  Theorem unmask_float_spec : computesU_k K E s (unmask_f_v A d s).
  Proof. apply liftU_k. intros. apply unmask_f_ok; auto. Qed.
  (** C12 *)
  Theorem blend_float_mask_spec : computesVVM_k K E s (blend_f_m A d s) (fun on off b => if b then on else off).
  Proof.
    apply liftVVM_k; [intros x y [|]; auto|]. intros. apply f_sel_m_ok; auto. intros. apply f_blend_ok; auto.
  Qed.
  Theorem blend_float_masks_spec : computesMMM_k K E s (blend_f_mm A d s) (fun on off b => if b then on else off).
  Proof. apply liftMMM_k. intros. apply f_sel_mm_ok; auto. intros. apply f_blend_ok; auto. Qed.
  Theorem blend_float_vec_spec : computesVVT w s (blend_f A d s).
  Proof. apply liftVVT; auto. intros. apply f_blend_ok; auto. Qed.
  Theorem bit_select_float_spec : computes3 w s (bit_select_f A d s)
    (fun on off m => Z.lor (Z.land on m) (Z.ldiff off m)).
  Proof.
    apply lift3; auto. { intros x y z Hx Hy Hz. apply bsel_reg; auto. }
    intros a b c Ha Hb Hc. rewrite f_bit_select_ok by auto. apply Rfeq.
    assert (0 < rbits s) by (destruct s; reflexivity).
    apply eq_v3; auto. { apply bsel_reg; auto. }
    intros i Hi. rewrite lane_bsel by lia. symmetry. apply wrap_small. apply bsel_reg; auto; apply flane.
  Qed.
  Theorem bit_select_float_mask_spec : computesVVM_k K E s (bit_select_f_m A d s) (fun on off b => if b then on else off).
  Proof.
    apply liftVVM_k; [intros x y [|]; auto|]. intros. apply f_sel_m_ok; auto. intros. apply f_bit_select_ok; auto using f_unmask_reg.
  Qed.
  (** where the overload compiles *)
  Theorem bit_select_float_masks_partial : (d = true -> null128 A d = false) ->
    computesMMM_k K E s (bit_select_f_mm A d s) (fun on off b => if b then on else off).
  Proof.
    intros HC. apply liftMMM_k. intros. apply f_sel_mm_ok; auto.
    - intros. apply f_bit_select_ok; auto using f_unmask_reg.
    - intros EN _. destruct d; [rewrite HC in EN by auto; discriminate|reflexivity].
  Qed.
  (** C41: masks of floats have at most 16 lanes *)
  Theorem cmp_eq_float_mask_spec : f_mask_cmp_here A s = true -> computesMM2_k K E s (cmp_eq_f_mm A d s) Bool.eqb.
  Proof. intros. apply liftMM2_k. intros. apply f_cmp_eq_mm_ok; auto. Qed.
  Theorem cmp_neq_float_mask_spec : f_mask_cmp_here A s = true -> computesMM2_k K E s (cmp_neq_f_mm A d s) xorb.
  Proof. intros. apply liftMM2_k. intros. apply f_cmp_neq_mm_ok; auto. Qed.
  (** C36: NaN and finiteness, at every lane value on every configuration *)
  Theorem isnan_spec : computesM1_k K E s (isnan_f A d s) (f_nan w).
  Proof. apply liftM1_k. intros. apply f_isnan_ok; auto. Qed.
  Theorem isnan2_spec : computesM2_k K E s (isnan2_f A d s) (fun x y => f_nan w x || f_nan w y).
  Proof. apply liftM2_k. intros. apply f_isnan2_ok; auto. Qed.
  Theorem isfinite_spec : computesM1_k K E s (isfinite_f A d s) (f_finite w).
  Proof. apply liftM1_k. intros. apply i_isfinite_ok; auto. Qed.
  (** sign operations *)
  Theorem abs_float_spec : computes1 w s (abs_f A d s) (f_mag w).
  Proof.
    apply lift1; auto. { intros x _. pose proof (f_mag_ran d x). lia. } intros a Ha. apply i_fabs_ok; auto.
  Qed.
  Theorem neg_float_spec : computes1 w s (neg_f A d s) (f_opp w).
  Proof. apply lift1; auto. { intros x Hx. apply f_opp_ran; auto. } intros a Ha. apply i_fneg_ok; auto. Qed.
  Theorem sign_float_spec : computes1 w s (sign_f A d s) (fun x => f_sign w (f_neg w x)).
  Proof. apply lift1; auto. { intros x Hx. apply f_sign_ran. } intros a Ha. apply i_sign_ok; auto. Qed.
  Theorem copysign_spec : computes2 w s (copysign_f A d s) (fun x y => f_sign w (f_neg w y) + f_mag w x).
  Proof. apply lift2; auto. { intros x y Hx Hy. apply f_join_ran. } intros a b Ha Hb. apply i_copysign_ok; auto. Qed.

  (** C08: IEEE comparisons.  First the exact behaviour, denormals flushed where the vector
      unit does ([fz]); then IEEE on every other configuration. *)
  Notation z := (fz (ftz A d) w).
  Theorem cmp_eq_float_flush : computesM2_k K E s (cmp_eq_f A d s) (fun x y => f_eq w (z x) (z y)).
  Proof. apply liftM2_k. intros. apply (fcmp_d_ok A d s HV HA f_eq f_eq); auto. Qed.
  Theorem cmp_neq_float_flush : computesM2_k K E s (cmp_neq_f A d s) (fun x y => negb (f_eq w (z x) (z y))).
  Proof. apply liftM2_k. intros. apply f_cmp_neq_ok; auto. Qed.
  Theorem cmp_lt_float_flush : computesM2_k K E s (cmp_lt_f A d s) (fun x y => f_lt w (z x) (z y)).
  Proof. apply liftM2_k. intros. apply (fcmp_d_ok A d s HV HA f_lt f_lt); auto. Qed.
  Theorem cmp_le_float_flush : computesM2_k K E s (cmp_le_f A d s) (fun x y => f_le w (z x) (z y)).
  Proof. apply liftM2_k. intros. apply (fcmp_d_ok A d s HV HA f_le f_le); auto. Qed.
  Theorem cmp_gt_float_flush : computesM2_k K E s (cmp_gt_f A d s) (fun x y => f_lt w (z y) (z x)).
  Proof. apply liftM2_k. intros. apply (fcmp_d_ok A d s HV HA (fun w x y => f_lt w y x) (fun w x y => f_lt w y x)); auto. Qed.
  Theorem cmp_ge_float_flush : computesM2_k K E s (cmp_ge_f A d s) (fun x y => f_le w (z y) (z x)).
  Proof. apply liftM2_k. intros. apply (fcmp_d_ok A d s HV HA (fun w x y => f_le w y x) (fun w x y => f_le w y x)); auto. Qed.
  (** addition and subtraction, correctly rounded *)
  Theorem add_float_flush : computes2 w s (add_f A d s) (fun x y => z (f_add w (z x) (z y))).
  Proof. apply lift2; auto. { intros. apply fz_ran, f_add_ran; apply fz_ran; auto. } intros. apply farith_ok; auto. Qed.
  Theorem sub_float_flush : computes2 w s (sub_f A d s) (fun x y => z (f_sub w (z x) (z y))).
  Proof. apply lift2; auto. { intros. apply fz_ran, f_sub_ran; apply fz_ran; auto. } intros. apply farith_ok; auto. Qed.
  Section IEEE.
    Hypothesis HZ : ftz A d = false.
    Theorem cmp_eq_float_partial : computesM2_k K E s (cmp_eq_f A d s) (f_eq w).
    Proof. pose proof cmp_eq_float_flush as H. rewrite HZ in H. exact H. Qed.
    Theorem cmp_neq_float_partial : computesM2_k K E s (cmp_neq_f A d s) (fun x y => negb (f_eq w x y)).
    Proof. pose proof cmp_neq_float_flush as H. rewrite HZ in H. exact H. Qed.
    Theorem cmp_lt_float_partial : computesM2_k K E s (cmp_lt_f A d s) (f_lt w).
    Proof. pose proof cmp_lt_float_flush as H. rewrite HZ in H. exact H. Qed.
    Theorem cmp_le_float_partial : computesM2_k K E s (cmp_le_f A d s) (f_le w).
    Proof. pose proof cmp_le_float_flush as H. rewrite HZ in H. exact H. Qed.
    Theorem cmp_gt_float_partial : computesM2_k K E s (cmp_gt_f A d s) (fun x y => f_lt w y x).
    Proof. pose proof cmp_gt_float_flush as H. rewrite HZ in H. exact H. Qed.
    Theorem cmp_ge_float_partial : computesM2_k K E s (cmp_ge_f A d s) (fun x y => f_le w y x).
    Proof. pose proof cmp_ge_float_flush as H. rewrite HZ in H. exact H. Qed.
    Theorem add_float_partial : computes2 w s (add_f A d s) (f_add w).
    Proof. pose proof add_float_flush as H. rewrite HZ in H. exact H. Qed.
    Theorem sub_float_partial : computes2 w s (sub_f A d s) (f_sub w).
    Proof. pose proof sub_float_flush as H. rewrite HZ in H. exact H. Qed.
  End IEEE.
End T.

(** On 32-bit ARM NEON and on AltiVec without VSX a denormal equals zero: the IEEE claim is
    false there. *)
Theorem cmp_eq_float_ftz_refuted : exists A va vb vm,
  valid_arch A = true /\ avail_flt A R128 = true /\ wfv R128 va /\ wfv R128 vb /\
  zipw (f_eq 32) (lanes 32 R128 va) (lanes 32 R128 vb) = [false; true; true; true] /\
  cmp_eq_f A false R128 va vb = Ok vm /\ masks_k (mk_flt A false R128) 32 R128 vm [true; true; true; true].
Proof.
  exists arch_altivec, [1], [0], [2 ^ 128 - 1].
  split; [vm_compute; reflexivity|]. split; [vm_compute; reflexivity|].
  split; [constructor; [vm_compute; intuition discriminate|constructor]|].
  split; [constructor; [vm_compute; intuition discriminate|constructor]|].
  split; [vm_compute; reflexivity|]. split; [vm_compute; reflexivity|].
  exists (fun _ => true), []. split; [vm_compute; reflexivity|]. split; reflexivity.
Qed.
(** bit_select of three float64 masks does not exist in scalar code. *)
Theorem bit_select_float_masks_refuted : exists A, valid_arch A = true /\ avail_flt A R128 = true /\
  bit_select_f_mm A true R128 [0] [0] [0] = NotImpl.
Proof. exists arch_null. split; [vm_compute; reflexivity|]. split; vm_compute; reflexivity. Qed.

(** f_mag / f_opp mean |x| and -x: the value of the result. *)
Theorem abs_float_value : forall d x, 0 <= x < 2 ^ fw d -> f_val (fw d) (f_mag (fw d) x) = Z.abs (f_val (fw d) x).
Proof.
  intros d x Hx. pose proof (f_mag_join d false x) as HM. pose proof (f_neg_join d false x) as HN. cbn [f_sign] in HM, HN. rewrite Z.add_0_l in HM, HN.
  unfold f_val, f_abs_val. rewrite HM, HN. set (v := if _ =? 0 then _ else _).
  assert (0 <= v); [|destruct (f_neg (fw d) x); lia].
  pose proof (f_mag_ran d x). assert (0 < 2 ^ fmant (fw d)) by (destruct d; reflexivity).
  pose proof (Z.mod_pos_bound (f_mag (fw d) x) (2 ^ fmant (fw d)) ltac:(lia)).
  unfold v. destruct (_ =? 0); [lia|]. apply Z.mul_nonneg_nonneg; [lia|apply Z.pow_nonneg; lia].
Qed.
Theorem neg_float_value : forall d x, 0 <= x < 2 ^ fw d -> f_val (fw d) (f_opp (fw d) x) = - f_val (fw d) x.
Proof. intros. apply f_val_opp; auto. Qed.

(** concrete cases: NaN (0x7fc00000), infinity, -0, 1.0 = 0x3f800000, 2.0 = 0x40000000 *)
Example float_case :
  cmp_lt_f arch_sse2 false R128 [0x7fc00000800000003f800000] [0x400000004000000040000000] = Ok [0xffffffffffffffff] /\
  isnan_f arch_neon64 false R128 [0x7fc0000000000000] = Ok [0xffffffff00000000] /\
  isfinite_f arch_null true R128 [0x7ff0000000000000] = Ok [256] /\
  add_f arch_avx false R128 [0x3f800000] [0x3f800000] = Ok [0x40000000] /\
  copysign_f arch_vsx207 true R128 [1] [2 ^ 63] = Ok [2 ^ 63 + 1].
Proof. repeat split; vm_compute; reflexivity. Qed.
