(** C11: bitwise operations on vectors and masks; C34: to_mask and the way back. *)
From Verif Require Import Proof.MaskP Model.BitApi.

(** Vectors: the lane functions are the bitwise operators on the w-bit patterns. *)
Theorem bit_and_spec : forall A w s, valid_arch A = true -> avail_int A (wb w) s = true ->
  computes2 (wb w) s (bit_and A w s) Z.land.
Proof.
  intros A w s HV HA. apply lift2; auto.
  - intros. apply land_reg; auto.
  - intros. rewrite i_bit_and_ok by auto. f_equal. apply land_v2; auto.
Qed.
Theorem bit_or_spec : forall A w s, valid_arch A = true -> avail_int A (wb w) s = true ->
  computes2 (wb w) s (bit_or A w s) Z.lor.
Proof.
  intros A w s HV HA. apply lift2; auto.
  - intros. apply lor_reg; auto.
  - intros. rewrite i_bit_or_ok by auto. f_equal. apply lor_v2; auto.
Qed.
Theorem bit_xor_spec : forall A w s, valid_arch A = true -> avail_int A (wb w) s = true ->
  computes2 (wb w) s (bit_xor A w s) Z.lxor.
Proof.
  intros A w s HV HA. apply lift2; auto.
  - intros. apply lxor_reg; auto.
  - intros. rewrite i_bit_xor_ok by auto. f_equal. apply lxor_v2; auto.
Qed.
(** bit_andnot(a, b) = a & ~b *)
Theorem bit_andnot_spec : forall A w s, valid_arch A = true -> avail_int A (wb w) s = true ->
  computes2 (wb w) s (bit_andnot A w s) (fun x y => Z.land x (Z.lnot y)).
Proof.
  intros A w s HV HA. apply lift2; auto.
  - intros. rewrite <- Z.ldiff_land. apply ldiff_reg; auto.
  - intros. rewrite i_bit_andnot_ok by auto. f_equal. rewrite (ldiff_v2 (wb w) (rbits s)) by auto.
    apply v2_ext; auto. intros. rewrite Z.ldiff_land. reflexivity.
Qed.
Theorem bit_not_spec : forall A w s, valid_arch A = true -> avail_int A (wb w) s = true ->
  computes1 (wb w) s (bit_not A w s) (fun x => (Z.lnot x) mod 2 ^ wb w).
Proof.
  intros A w s HV HA. apply (lift1w _ _ _ Z.lnot); auto.
  intros. rewrite i_bit_not_ok by auto. f_equal. symmetry. apply (lnot_v1 (wb w)); auto.
Qed.
Example bit_case : bit_andnot arch_altivec W64 R128 [0xff] [0x0f] = Ok [0xf0] /\
  bit_not arch_avx512f W32 R512 [2 ^ 512 - 2] = Ok [1].
Proof. split; vm_compute; reflexivity. Qed.

(** A mask argument acts as all-ones/zero lanes. *)
Theorem bit_and_vm_spec : forall A w s, valid_arch A = true -> avail_int A (wb w) s = true ->
  computesVM A w s (bit_and_vm A w s) (fun x (b : bool) => if b then x else 0).
Proof.
  intros A w s HV HA. apply liftVM.
  - intros x [|]; auto; lia.
  - intros. apply i_bit_and_vm_ok; auto.
Qed.
Theorem bit_andnot_vm_spec : forall A w s, valid_arch A = true -> avail_int A (wb w) s = true ->
  computesVM A w s (bit_andnot_vm A w s) (fun x (b : bool) => if b then 0 else x).
Proof.
  intros A w s HV HA. apply liftVM.
  - intros x [|]; auto; lia.
  - intros. apply i_bit_andnot_vm_ok; auto.
Qed.
(** Masks: boolean operations lane by lane. *)
Theorem bit_and_mm_spec : forall A w s, valid_arch A = true -> avail_int A (wb w) s = true ->
  computesMM2 A w s (bit_and_mm A w s) andb.
Proof. intros A w s HV HA. apply liftMM2. intros. apply i_bit_and_mm_ok; auto. Qed.
Theorem bit_or_mm_spec : forall A w s, valid_arch A = true -> avail_int A (wb w) s = true ->
  computesMM2 A w s (bit_or_mm A w s) orb.
Proof. intros A w s HV HA. apply liftMM2. intros. apply i_bit_or_mm_ok; auto. Qed.
Theorem bit_xor_mm_spec : forall A w s, valid_arch A = true -> avail_int A (wb w) s = true ->
  computesMM2 A w s (bit_xor_mm A w s) xorb.
Proof. intros A w s HV HA. apply liftMM2. intros. apply i_bit_xor_mm_ok; auto. Qed.
Theorem bit_andnot_mm_spec : forall A w s, valid_arch A = true -> avail_int A (wb w) s = true ->
  computesMM2 A w s (bit_andnot_mm A w s) (fun x y => x && negb y).
Proof. intros A w s HV HA. apply liftMM2. intros. apply i_bit_andnot_mm_ok; auto. Qed.
Theorem bit_not_m_spec : forall A w s, valid_arch A = true -> avail_int A (wb w) s = true ->
  computesMM1 A w s (bit_not_m A w s) negb.
Proof. intros A w s HV HA. apply (liftMM1 A w s _ negb). intros. apply i_bit_not_m_ok; auto. Qed.

(** C34 *)
Theorem to_mask_spec : forall A w s, computesTM A w s (to_mask A w s).
Proof. intros A w s. apply liftTM. intros. apply i_to_mask_ok. Qed.
Theorem unmask_spec : forall A w s, avail_int A (wb w) s = true -> computesU A w s (unmask_v A w s).
Proof. intros A w s HA. apply liftU. intros. apply unmask_ok; auto. Qed.
(** Masks that meet the hypotheses exist for every list of booleans of the right length:
    whatever lanes one wants, to_mask of the corresponding vector is such a mask. *)
Example mask_case : exists vm, to_mask arch_avx512all W32 R128 [2 ^ 64 - 2 ^ 32] = Ok vm /\
  masks arch_avx512all W32 R128 vm [false; true; false; false] /\
  unmask_v arch_avx512all W32 R128 vm = Ok [2 ^ 64 - 2 ^ 32].
Proof.
  exists [2]. split; [vm_compute; reflexivity|]. split; [|vm_compute; reflexivity].
  exists (fun i => i =? 1), []. split; [|split; reflexivity].
  split; [lia|]. intros i Hi. change (rbits R128 / wb W32) with 4 in Hi.
  assert (i = 0 \/ i = 1 \/ i = 2 \/ i = 3) as [->|[->|[->| ->]]] by lia; reflexivity.
Qed.
Example mask_case_null : to_mask arch_null W16 R128 [0xffff0000] = Ok [256] /\
  bit_not_m arch_null W16 R128 [256] = Ok [0x0101010101010001].
Proof. split; vm_compute; reflexivity. Qed.
