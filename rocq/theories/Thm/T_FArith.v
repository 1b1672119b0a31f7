(** Floating-point multiplication (C47), division and square root (C48), fused multiply-add (C49)
    are correctly rounded; what is not is stated exactly.  Also: the rounding used in these
    specifications and in addition (C44) is rounding to nearest. *)
From Verif Require Import Proof.FloatsP3 Model.FArith Proof.FloatRoundP Proof.FArithP.
From Coq Require Import Lia.

Section T.
  Variables (A : arch) (d : bool) (s : rsz).
  Hypotheses (HV : valid_arch A = true) (HA : avail_flt A s = true).
  Notation w := (fw d).
  Notation z := (fz (ftz A d) w).
  Let HW : wok w (rbits s) = true := fwok d s.

  Theorem mul_float_flush :
    computes2 w s (mul_f A d s) (fun x y => z (if by_madd A d then f_fma w (z x) (z y) 0 else f_mul w (z x) (z y))).
  Proof.
    apply lift2; auto.
    - intros x y Hx Hy. apply fz_ran. destruct (by_madd A d); [apply f_fma_ran|apply f_mul_ran].
      pose proof (fw_pos d). pose proof (pow2_pos w ltac:(lia)). lia.
    - intros. apply i_fmul_ok; auto.
  Qed.
  Theorem mul_float_partial : ftz A d = false -> computes2 w s (mul_f A d s) (f_mul w).
  Proof.
    intros HZ. pose proof mul_float_flush as H. pose proof (madd_ftz A d) as M.
    destruct (by_madd A d); [rewrite M in HZ by auto; discriminate|]. rewrite HZ in H. exact H.
  Qed.
  (** whatever the reciprocal estimates of the processor *)
  Theorem div_float_partial est : ftz A d = false -> computes2 w s (div_f est A d s) (f_div w).
  Proof.
    intros HZ. apply lift2; auto. { intros. apply f_div_ran; auto. } intros. apply i_fdiv_ok; auto.
  Qed.
  Theorem sqrt_float_partial est : by_rsqrt A d = false -> computes1 w s (sqrt_f est A d s) (f_sqrt w).
  Proof.
    intros HZ. apply lift1; auto. { intros. apply f_sqrt_ran; auto. } intros. apply i_fsqrt_ok; auto.
  Qed.
  Lemma f_fms_ran x y t : 0 <= t < 2 ^ w -> 0 <= f_fms w x y t < 2 ^ w.
  Proof. intros. unfold f_fms. destruct (f_nan w t); [apply f_qnan_ran|]. apply f_fma_ran. apply f_opp_ran; auto. Qed.
  Theorem fmadd_float_partial : fma_here A s = true -> computes3 w s (fmadd_f A d s) (f_fma w).
  Proof. intros HF. apply lift3; auto. { intros. apply f_fma_ran; auto. } intros. apply i_fmadd_ok; auto. Qed.
  Theorem fmsub_float_partial : fma_here A s = true -> computes3 w s (fmsub_f A d s) (f_fms w).
  Proof. intros HF. apply lift3; auto. { intros. apply f_fms_ran; auto. } intros. apply i_fmsub_ok; auto. Qed.
End T.

Section O.
  Variables (A : arch) (d : bool).
  Hypothesis HV : valid_arch A = true.
  Notation w := (fw d).
  Let HW : wok w 128 = true := fwok d R128.
  (** MSA: fmadd is right, fmsub has the wrong sign *)
  Theorem fmadd_float_msa_partial : use_msa A = true -> computes3 w R128 (fmadd_f A d R128) (f_fma w).
  Proof.
    intros H. apply lift3; auto. { intros. apply f_fma_ran; auto. } intros. unfold i_fmadd, fma_sizes.
    destruct (not_msa A HV H) as (-> & -> & -> & ->). rewrite H. reflexivity.
  Qed.
  Theorem fmsub_float_msa : use_msa A = true -> computes3 w R128 (fmsub_f A d R128) (fun x y t => f_fma w (f_opp w x) y t).
  Proof.
    intros H. apply lift3; auto. { intros. apply f_fma_ran; auto. } intros. unfold i_fmsub, fma_sizes.
    destruct (not_msa A HV H) as (-> & -> & -> & ->). rewrite H. reflexivity.
  Qed.
  (** 64-bit ARM: the operands are taken in the wrong order *)
  Theorem fmadd_float_neon : use_neon64 A = true -> computes3 w R128 (fmadd_f A d R128) (fun x y t => f_fma w y t x).
  Proof.
    intros H. apply lift3; auto. { intros. apply f_fma_ran; auto. } intros. unfold i_fmadd, fma_sizes.
    destruct (not_neon A HV H) as (-> & -> & ->). rewrite H. reflexivity.
  Qed.
  Theorem fmsub_float_neon : use_neon64 A = true -> computes3 w R128 (fmsub_f A d R128) (fun x y t => f_fma w (f_opp w y) t x).
  Proof.
    intros H. apply lift3; auto. { intros. apply f_fma_ran; auto. } intros. unfold i_fmsub, fma_sizes.
    destruct (not_neon A HV H) as (-> & -> & ->). rewrite H. reflexivity.
  Qed.
End O.

(** * The results are the nearest floats *)
Section N.
  Variable d : bool.
  Notation w := (fw d).
  Let Nf x : f_finite w x = true -> f_nan w x = false /\ f_isinf w x = false.
  Proof. unfold f_finite, f_nan, f_isinf. intros H. apply Z.ltb_lt in H. split; [apply Z.ltb_ge|apply Z.eqb_neq]; lia. Qed.
  Let sgn_mag b r : 0 <= r <= f_inf w -> f_neg w (f_sign w b + r) = b /\ f_mag w (f_sign w b + r) = r.
  Proof.
    intros Hr. pose proof (inf_small d). unfold f_neg, f_mag, f_sign. destruct b.
    - split; [apply Z.leb_le; lia|]. replace (2 ^ (w - 1) + r) with (r + 1 * 2 ^ (w - 1)) by lia. rewrite Z.mod_add by lia. apply Z.mod_small; lia.
    - split; [apply Z.leb_gt; lia|]. apply Z.mod_small; lia.
  Qed.
  (** sums *)
  Theorem add_float_nearest x y : f_finite w x = true -> f_finite w y = true -> f_val w x + f_val w y <> 0 ->
    f_neg w (f_add w x y) = (f_val w x + f_val w y <? 0) /\
    nearest_mag w (Z.abs (f_val w x + f_val w y)) 1 (f_mag w (f_add w x y)).
  Proof.
    intros Hx Hy Hv. destruct (Nf x Hx) as [N1 I1]. destruct (Nf y Hy) as [N2 I2]. unfold f_add, f_unord. rewrite N1, N2, I1, I2. cbn [orb].
    rewrite (proj2 (Z.eqb_neq _ _) Hv).
    pose proof (f_round_nearest d (Z.abs (f_val w x + f_val w y)) 0 ltac:(lia) ltac:(lia)) as H.
    destruct (sgn_mag (f_val w x + f_val w y <? 0) _ (proj1 H)) as [-> ->]. split; auto.
  Qed.
  (** products: |x| * |y| in units of the square of the smallest denormal *)
  Theorem mul_float_nearest x y : f_finite w x = true -> f_finite w y = true ->
    f_neg w (f_mul w x y) = xorb (f_neg w x) (f_neg w y) /\
    nearest_mag w (f_abs_val w x * f_abs_val w y) (2 ^ fulp w) (f_mag w (f_mul w x y)).
  Proof.
    intros Hx Hy. destruct (Nf x Hx) as [N1 I1]. destruct (Nf y Hy) as [N2 I2]. unfold f_mul, f_unord. rewrite N1, N2, I1, I2. cbn [orb].
    pose proof (abs_val_nonneg d x). pose proof (abs_val_nonneg d y).
    pose proof (f_round_nearest d (f_abs_val w x * f_abs_val w y) (fulp w) ltac:(nia) (fulp_pos d)) as N.
    destruct (sgn_mag (xorb (f_neg w x) (f_neg w y)) _ (proj1 N)) as [-> ->]. split; auto.
  Qed.
  Theorem div_float_nearest x y : 0 <= y < 2 ^ w -> f_finite w x = true -> f_finite w y = true -> f_zero w y = false ->
    f_neg w (f_div w x y) = xorb (f_neg w x) (f_neg w y) /\
    nearest_mag w (f_abs_val w x * 2 ^ fulp w) (f_abs_val w y) (f_mag w (f_div w x y)).
  Proof.
    intros Ry Hx Hy Hz. destruct (Nf x Hx) as [N1 I1]. destruct (Nf y Hy) as [N2 I2]. unfold f_div, f_unord. rewrite N1, N2, I1, I2, Hz. cbn [orb].
    pose proof (abs_val_nonneg d x). pose proof (zero_val d y Ry Hz). pose proof (fulp_pos d). pose proof (Z.pow_nonneg 2 (fulp w) ltac:(lia)).
    pose proof (f_round_q_nearest d (f_abs_val w x * 2 ^ fulp w) (f_abs_val w y) ltac:(nia) ltac:(lia)) as N.
    destruct (sgn_mag (xorb (f_neg w x) (f_neg w y)) _ (proj1 N)) as [-> ->]. split; auto.
  Qed.
  Theorem sqrt_float_nearest x : 0 <= x < 2 ^ w -> f_finite w x = true -> f_zero w x = false -> f_neg w x = false ->
    f_neg w (f_sqrt w x) = false /\ nearest_root w (f_abs_val w x * 2 ^ fulp w) (f_mag w (f_sqrt w x)).
  Proof.
    intros Rx Hx Hz Hn. destruct (Nf x Hx) as [N1 I1]. unfold f_sqrt. rewrite N1, I1, Hz, Hn.
    pose proof (root_of d x Rx Hx Hz) as N. destruct (sgn_mag false (f_root w (f_abs_val w x * 2 ^ fulp w))) as [E1 E2].
    { destruct N as [N _]. lia. }
    unfold f_sign in E1, E2. rewrite Z.add_0_l in E1, E2. rewrite E1, E2. split; auto.
  Qed.
  Theorem fma_float_nearest x y t : f_finite w x = true -> f_finite w y = true -> f_finite w t = true ->
    let v := f_val w x * f_val w y + f_val w t * 2 ^ fulp w in v <> 0 ->
    f_neg w (f_fma w x y t) = (v <? 0) /\ nearest_mag w (Z.abs v) (2 ^ fulp w) (f_mag w (f_fma w x y t)).
  Proof.
    intros Hx Hy Ht v Hv. destruct (Nf x Hx) as [N1 I1]. destruct (Nf y Hy) as [N2 I2]. destruct (Nf t Ht) as [N3 I3].
    unfold f_fma. rewrite N1, N2, N3, I1, I2, I3. cbn [orb]. fold v. rewrite (proj2 (Z.eqb_neq _ _) Hv).
    pose proof (f_round_nearest d (Z.abs v) (fulp w) ltac:(lia) (fulp_pos d)) as N.
    destruct (sgn_mag (v <? 0) _ (proj1 N)) as [-> ->]. split; auto.
  Qed.
End N.

(** * Where the code does not keep the promise *)
(** AltiVec multiplies with vec_madd(a, b, +0): -0 * 1 is +0 *)
Theorem mul_float_altivec_refuted :
  valid_arch arch_altivec = true /\ mul_f arch_altivec false R128 [splat 32 128 0x80000000] [splat 32 128 0x3f800000] = Ok [0] /\
  f_mul 32 0x80000000 0x3f800000 = 0x80000000.
Proof. split; [|split]; vm_compute; reflexivity. Qed.
(** 32-bit ARM with NEON floating point *)
Definition arch_neon32fp := mkArch false false false false false false false false
  false false false false false false false true true false false false false false false false true.
(** the square root of zero is NaN on 32-bit ARM and on AltiVec, whose estimate of 1/sqrt(0) is
    infinity *)
Theorem sqrt_float_zero_refuted est : est 0 = 0x7f800000 ->
  valid_arch arch_neon32fp = true /\ sqrt_f est arch_neon32fp false R128 [0] = Ok [splat 32 128 (f_qnan 32)] /\
  sqrt_f est arch_altivec false R128 [0] = Ok [splat 32 128 (f_qnan 32)] /\ f_sqrt 32 0 = 0.
Proof.
  intros He.
  assert (E : v1 32 128 est 0 = splat 32 128 0x7f800000).
  { unfold v1, splat, pack. apply mk_ext. intros i Hi. rewrite lane_of_zero, He by lia. reflexivity. }
  unfold sqrt_f. cbn [vec_impl1]. unfold i_fsqrt. cbv zeta. rewrite E.
  split; [|split; [|split]]; vm_compute; reflexivity.
Qed.
(** fmadd on 64-bit ARM: 2 * 3 + 1 gives 2 + 3 * 1 *)
Theorem fmadd_float_neon_refuted :
  fmadd_f arch_neon64 false R128 [splat 32 128 0x40000000] [splat 32 128 0x40400000] [splat 32 128 0x3f800000] =
    Ok [splat 32 128 0x40a00000] /\ f_fma 32 0x40000000 0x40400000 0x3f800000 = 0x40e00000.
Proof. split; vm_compute; reflexivity. Qed.
(** fmsub on MSA: 2 * 3 - 1 gives 1 - 2 * 3 *)
Theorem fmsub_float_msa_refuted :
  fmsub_f arch_msa false R128 [splat 32 128 0x40000000] [splat 32 128 0x40400000] [splat 32 128 0x3f800000] =
    Ok [splat 32 128 0xc0a00000] /\ f_fms 32 0x40000000 0x40400000 0x3f800000 = 0x40a00000.
Proof. split; vm_compute; reflexivity. Qed.
Example farith_case :
  mul_f arch_avx false R128 [0x3fc00000] [0xc0200000] = Ok [0xc0700000] /\
  div_f (fun x => x) arch_sse2 false R128 [0x3f800000] [splat 32 128 0x40400000] = Ok [0x3eaaaaab] /\
  sqrt_f (fun x => x) arch_null false R128 [0x40000000] = Ok [0x3fb504f3] /\
  sqrt_f (fun x => x) arch_vsx207 true R128 [0x4000000000000000] = Ok [0x3ff6a09e667f3bcd] /\
  fmadd_f arch_null false R128 [0x3f800001] [0x3f800001] [0xbf800002] = Ok [679477248].
Proof. split; [|split; [|split; [|split]]]; vm_compute; reflexivity. Qed.
