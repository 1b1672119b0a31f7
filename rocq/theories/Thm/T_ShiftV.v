(** C10: shifts of every lane by the count in the corresponding lane of a vector. *)
From Verif Require Import Model.ShiftV Proof.ShiftVP Proof.ShiftVP6 Thm.T_Shift.

(** the counts of all lanes are below the lane width *)
Definition in_range (w : Z) (x c : Z) : Prop := c < w.
(** Where the operations exist (SIMDPP_HAS_..._BY_VECTOR): always for 32-bit lanes; 8- and 16-bit lanes not on x86 before
    SSSE3; the signed 16-bit right shift not on x86 without AVX512BW; never for 64-bit lanes. *)
Definition shifts_l (A : arch) (w : ew) : bool :=
  match w with W8 | W16 => negb (use_sse2 A && negb (use_ssse3 A)) | W32 => true | W64 => false end.
Definition shifts_r (A : arch) (sg : bool) (w : ew) : bool :=
  match w with
  | W8 => negb (use_sse2 A && negb (use_ssse3 A))
  | W16 => if sg then negb (use_sse2 A && negb (use_avx512bw A)) else negb (use_sse2 A && negb (use_ssse3 A))
  | W32 => true
  | W64 => false
  end.
Lemma has_l A w : valid_arch A = true -> has_shift_l_v A w = shifts_l A w.
Proof. intros HV. destruct w; unfold has_shift_l_v, shifts_l, byte_shifts; try reflexivity; fam HV; rw_flags; cbn [orb andb negb]; repeat split_if; reflexivity || (destruct (use_ssse3 A) eqn:E; reflexivity || vimp HV). Qed.
Lemma has_r A sg w : valid_arch A = true -> has_shift_r_v A sg w = shifts_r A sg w.
Proof. intros HV. destruct sg, w; unfold has_shift_r_v, shifts_r, byte_shifts; try reflexivity; fam HV; rw_flags; cbn [orb andb negb]; repeat split_if; reflexivity || (destruct (use_ssse3 A) eqn:E; reflexivity || vimp HV) || (destruct (use_avx512bw A) eqn:E; reflexivity || vimp HV). Qed.

Theorem shift_l_by_vector_spec : forall A w s, valid_arch A = true -> avail_int A (wb w) s = true -> shifts_l A w = true ->
  computes2_if (wb w) s (in_range (wb w)) (shift_l_v A s w) (fun x c => s_shl (wb w) c x).
Proof.
  intros A w s HV HA HS. rewrite <- has_l in HS by auto. unfold shift_l_v. rewrite HS. apply (lift2p _ _ _ _ (fun x c => Z.shiftl x c)); auto using wok_lib.
  - intros x y Hx Hy. apply shl_spec_w. lia.
  - intros a b Ha Hb HC. apply i_shift_l_v_ok; auto.
Qed.
Theorem shift_r_by_vector_unsigned_spec : forall A w s, valid_arch A = true -> avail_int A (wb w) s = true -> shifts_r A false w = true ->
  computes2_if (wb w) s (in_range (wb w)) (shift_r_v A s false w) (fun x c => s_shr_u (wb w) c x).
Proof.
  intros A w s HV HA HS. rewrite <- has_r in HS by auto. unfold shift_r_v. rewrite HS. apply (lift2p _ _ _ _ (fr false (wb w))); auto using wok_lib.
  - intros x y Hx Hy. apply shr_u_spec_w; auto using wb_pos; lia.
  - intros a b Ha Hb HC. apply i_shift_r_v_ok; auto.
Qed.
Theorem shift_r_by_vector_signed_spec : forall A w s, valid_arch A = true -> avail_int A (wb w) s = true -> shifts_r A true w = true ->
  computes2_if (wb w) s (in_range (wb w)) (shift_r_v A s true w) (fun x c => s_shr_s (wb w) c x).
Proof.
  intros A w s HV HA HS. rewrite <- has_r in HS by auto. unfold shift_r_v. rewrite HS. apply (lift2p _ _ _ _ (fr true (wb w))); auto using wok_lib.
  - intros x y Hx Hy. apply shr_s_spec_w. lia.
  - intros a b Ha Hb HC. apply i_shift_r_v_ok; auto.
Qed.
(** where they do not exist, the program does not compile *)
Theorem shift_by_vector_unavailable : forall A w s sg va vc, valid_arch A = true ->
  (shifts_l A w = false -> shift_l_v A s w va vc = NotImpl) /\ (shifts_r A sg w = false -> shift_r_v A s sg w va vc = NotImpl).
Proof. intros A w s sg va vc HV. split; intros H; [rewrite <- has_l in H by auto|rewrite <- has_r in H by auto]; unfold shift_l_v, shift_r_v; rewrite H; reflexivity. Qed.
(** Out of range the instruction sets disagree: a count of 8 on bytes *)
Theorem shift_by_vector_out_of_range_refuted : valid_arch arch_ssse3 = true /\ valid_arch arch_avx512all = true /\
  shift_l_v arch_ssse3 R128 W8 [1] [8] = Ok [1] /\ shift_l_v arch_avx512all R128 W8 [1] [8] = Ok [0] /\ shift_l_v arch_null R128 W32 [1] [32] = UB.
Proof. split; [|split; [|split; [|split]]]; vm_compute; reflexivity. Qed.
(** concrete cases: every emulation *)
Example shift_by_vector_case :
  shift_l_v arch_ssse3 R128 W8 [0x81ff81ff] [0x07040100] = Ok [0x80f002ff] /\
  shift_r_v arch_ssse3 R128 true W8 [0x80ff7f81] [0x07040100] = Ok [0xffff3f81] /\
  shift_r_v arch_avx512all R512 false W8 [0x80ff7f81] [0x07040100] = Ok [0x010f3f81] /\
  shift_l_v arch_avx2 R256 W16 [0x00010001ffff] [0x000f00090004] = Ok [0x80000200fff0] /\
  shift_r_v arch_ssse3 R128 false W16 [0x8000ff00ffff] [0x000f00090000] = Ok [0x0001007fffff] /\
  shift_r_v arch_sse2 R128 true W32 [2 ^ 127 + 2 ^ 95 + 2 ^ 63 + 2 ^ 31] [0x0000001f000000100000000100000000] = Ok [0xffffffffffff8000c000000080000000] /\
  shift_r_v arch_neon32 R128 true W8 [0x80ff7f81] [0x07040100] = Ok [0xffff3f81] /\
  shift_r_v arch_altivec R128 false W16 [0x8000ff00ffff] [0x000f00090000] = Ok [0x0001007fffff].
Proof. split; [|split; [|split; [|split; [|split; [|split; [|split]]]]]]; vm_compute; reflexivity. Qed.
