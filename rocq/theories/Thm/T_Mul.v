(** C04, C05: integer multiplication. *)
From Verif Require Import Proof.MulP5.

(** 16-bit lanes.  On the null backend each factor is promoted to int, so the product of
    two large unsigned lanes overflows: the theorem asks for products that fit there. *)
Theorem mul_lo16_spec_partial : forall A s, valid_arch A = true -> avail_int A 16 s = true ->
  computes2_if 16 s (fun x y => use_null A = true -> x * y <= 2147483647) (mul_lo A W16 s) (s_mul_lo 16).
Proof.
  intros A s HV HA. apply (lift2p _ _ _ _ Z.mul); [apply wok16s|reflexivity|].
  intros a b Ha Hb HP. apply i_mul_lo16_ok; auto. intros HN i Hi. apply (HP i Hi HN).
Qed.
(** every vectorised backend: no condition on the lanes *)
Theorem mul_lo16_simd_spec : forall A s, valid_arch A = true -> use_null A = false -> avail_int A 16 s = true ->
  computes2 16 s (mul_lo A W16 s) (s_mul_lo 16).
Proof.
  intros A s HV HN HA. apply (lift2w _ _ _ Z.mul); [apply wok16s|reflexivity|].
  intros a b Ha Hb. apply i_mul_lo16_ok; auto. intros HN'. rewrite HN in HN'. discriminate HN'.
Qed.
Theorem mul_lo32_spec : forall A s, valid_arch A = true -> avail_int A 32 s = true ->
  computes2 32 s (mul_lo A W32 s) (s_mul_lo 32).
Proof.
  intros A s HV HA. apply (lift2w _ _ _ Z.mul); [destruct s; reflexivity|reflexivity|].
  intros a b Ha Hb. apply i_mul_lo32_ok; auto.
Qed.
Theorem mul_hi_unsigned_spec : forall A s, valid_arch A = true -> avail_int A 16 s = true ->
  computes2 16 s (mul_hi A false s) (s_mul_hi_u 16).
Proof.
  intros A s HV HA. apply (lift2w _ _ _ (fun x y => Z.shiftr (x * y) 16)); [apply wok16s| |].
  - intros x y Hx Hy. rewrite Z.shiftr_div_pow2 by lia. apply wrap_small. unfold s_mul_hi_u.
    pose proof (prod_range 16 x y ltac:(lia) Hx Hy) as Hp. split; [apply Z.div_pos; lia|apply Z.div_lt_upper_bound; [lia|exact (proj2 Hp)]].
  - intros a b Ha Hb. apply i_mul_hi_ok; auto.
Qed.
Theorem mul_hi_signed_spec : forall A s, valid_arch A = true -> avail_int A 16 s = true ->
  computes2 16 s (mul_hi A true s) (s_mul_hi_s 16).
Proof.
  intros A s HV HA. apply (lift2w _ _ _ (fun x y => Z.shiftr (sgn 16 x * sgn 16 y) 16)); [apply wok16s| |].
  - intros x y Hx Hy. rewrite Z.shiftr_div_pow2 by lia. reflexivity.
  - intros a b Ha Hb. apply i_mul_hi_ok; auto.
Qed.
(** the widening product *)
Theorem mull16_spec : forall A sg T, valid_arch A = true -> vsize T ->
  converts2 A 16 32 T (mull16 A sg T) (s_mull sg 16).
Proof.
  intros A sg T HV HT. apply mull_typed; auto; [unfold wpair; auto|].
  intros a b Ha Hb s. apply i_mull16_ok; auto. apply vreg_avail; auto.
Qed.
Theorem mull32_unsigned_spec : forall A T, valid_arch A = true -> vsize T ->
  converts2 A 32 64 T (mull32 A false T) (s_mull false 32).
Proof.
  intros A T HV HT. apply mull_typed; auto; [unfold wpair; auto|].
  intros a b Ha Hb s. apply i_mull32_ok; auto. apply vreg_avail; auto.
Qed.
Theorem mull32_signed_spec_partial : forall A T, valid_arch A = true -> vsize T ->
  (use_sse2 A = true -> use_sse41 A = true) -> (use_altivec A = true -> use_vsx207 A = true) ->
  (use_avx512f A = true -> T <= 256) ->
  converts2 A 32 64 T (mull32 A true T) (s_mull true 32).
Proof.
  intros A T HV HT H1 H2 H3. apply mull_typed; auto; [unfold wpair; auto|].
  intros a b Ha Hb s. apply i_mull32_ok; auto; [apply vreg_avail; auto|].
  unfold s, vreg, fast_int, mull32_missing. cbn [andb Z.leb Z.compare Pos.compare Pos.compare_cont].
  assert (use_sse2 A && negb (use_sse41 A) || use_altivec A && negb (use_vsx207 A) = false) as HM.
  { destruct (use_sse2 A); [rewrite H1 by auto|]; (destruct (use_altivec A); [rewrite H2 by auto|]); reflexivity. }
  destruct (T <=? 128); auto.
  assert (use_avx512f A = false -> use_avx512bw A = false) as HBF by (intros; destruct (rconf_ok _ HV); auto; fcontra).
  destruct (use_avx512f A) eqn:EF.
  - destruct (Z.leb_spec T 256) as [|HL]; [destruct (use_avx512bw A); reflexivity|]. exfalso. clear - HL H3 EF. pose proof (H3 eq_refl). lia.
  - rewrite (HBF eq_refl). destruct (use_avx2 A); first [reflexivity|exact HM].
Qed.

(** What is missing above is missing in the library. *)
Theorem mul_lo16_null_refuted :
  exists va, wfv R128 va /\ mul_lo arch_null W16 R128 va va = UB.
Proof. exists [65535]. split; [apply wfv_cons; split; [split; vm_compute; [discriminate|reflexivity]|constructor]|vm_compute; reflexivity]. Qed.
Theorem mull32_signed_sse2_refuted : mull32 arch_ssse3 true 128 [1] [1] = NotImpl.
Proof. vm_compute; reflexivity. Qed.
Theorem mull32_signed_altivec_refuted : mull32 arch_altivec true 128 [1] [1] = NotImpl.
Proof. vm_compute; reflexivity. Qed.
(** int32<16> on AVX-512F: i_mull calls itself *)
Theorem mull32_signed_avx512_refuted : mull32 arch_avx512f true 512 [1] [1] = UB.
Proof. vm_compute; reflexivity. Qed.

(** Concrete cases. *)
Definition v16 (l : list Z) : Z := fold_right (fun x a => x + 2 ^ 16 * a) 0 l.
Definition v32 (l : list Z) : Z := fold_right (fun x a => x + 2 ^ 32 * a) 0 l.
Example mul_hi_ex : mul_hi arch_altivec true R128 [v16 [32768; 1; 65535; 0; 300; 7; 8; 9]] [v16 [32768; 1; 2; 0; 300; 7; 8; 9]] =
  Ok [v16 [16384; 0; 65535; 0; 1; 0; 0; 0]].
Proof. vm_compute; reflexivity. Qed.
Example mull_ex : mull16 arch_sse2 false 128 [v16 [65535; 1; 65535; 0; 300; 7; 8; 9]] [v16 [65535; 1; 2; 0; 300; 7; 8; 9]] =
  Ok [v32 [4294836225; 1; 131070; 0]; v32 [90000; 49; 64; 81]].
Proof. vm_compute; reflexivity. Qed.
Example mull32_hyps : valid_arch arch_sse41 = true /\ vsize 256 /\
  (use_sse2 arch_sse41 = true -> use_sse41 arch_sse41 = true) /\ typed arch_sse41 32 256 [v32 [4294967295; 2; 3; 4]; v32 [1; 2; 3; 4]] /\
  mull32 arch_sse41 true 256 [v32 [4294967295; 2; 3; 4]; v32 [1; 2; 3; 4]] [v32 [3; 2; 3; 4]; v32 [1; 2; 3; 4]] =
  Ok [2 ^ 64 - 3 + 2 ^ 64 * 4; 9 + 2 ^ 64 * 16; 1 + 2 ^ 64 * 4; 9 + 2 ^ 64 * 16].
Proof.
  split; [reflexivity|]. split; [exists 1%nat; reflexivity|]. split; [intros _; reflexivity|]. split; [split; [|vm_compute; reflexivity]|vm_compute; reflexivity].
  apply wfv_cons; split; [split; vm_compute; [discriminate|reflexivity]|apply wfv_cons; split; [split; vm_compute; [discriminate|reflexivity]|constructor]].
Qed.
