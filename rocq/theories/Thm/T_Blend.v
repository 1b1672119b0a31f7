(** C12: blend and bit_select. *)
From Verif Require Import Proof.BlendP.

Section T.
  Variables (A : arch) (w : ew) (s : rsz).
  Hypotheses (HV : valid_arch A = true) (HA : avail_int A (wb w) s = true).

  (** the mask is a mask type *)
  Theorem blend_mask_spec : computesVVM A w s (blend_m A w s) (fun on off b => if b then on else off).
  Proof.
    apply liftVVM; [intros x y [|]; auto|]. intros a b m p Ha Hb Hm. apply sel_m_ok; auto.
    intros. apply i_blend_ok; auto.
  Qed.
  (** all operands are mask types *)
  Theorem blend_masks_spec : computesMMM A w s (blend_mm A w s) (fun on off b => if b then on else off).
  Proof.
    apply liftMMM. intros a b m p q r Ha Hb Hm. apply sel_mm_ok; auto. intros. apply i_blend_ok; auto.
  Qed.
  (** the mask is a vector each of whose lanes is all ones or zero *)
  Theorem blend_vec_spec : computesVVT (wb w) s (blend A w s).
  Proof. apply liftVVT; [apply wok_lib|]. intros. apply i_blend_ok; auto. Qed.

  (** bit_select: bit by bit, for every mask vector *)
  Theorem bit_select_spec : computes3 (wb w) s (bit_select A w s)
    (fun on off m => Z.lor (Z.land on m) (Z.ldiff off m)).
  Proof.
    apply lift3; [apply wok_lib| |].
    - intros x y z Hx Hy Hz. apply bsel_reg; auto.
    - intros a b c Ha Hb Hc. rewrite i_bit_select_ok by auto. f_equal.
      assert (0 < rbits s) by (destruct s; reflexivity).
      apply eq_v3; [apply wok_lib|apply bsel_reg; auto|].
      intros i Hi. rewrite lane_bsel by (lia || (pose proof (wb_pos w); lia)). symmetry. apply wrap_small.
      apply bsel_reg; auto; try apply wb_pos; apply ulane_range.
  Qed.
  Theorem bit_select_mask_spec : computesVVM A w s (bit_select_m A w s) (fun on off b => if b then on else off).
  Proof.
    apply liftVVM; [intros x y [|]; auto|]. intros a b m p Ha Hb Hm. apply sel_m_ok; auto.
    intros. apply i_bit_select_ok; auto.
  Qed.
  Theorem bit_select_masks_spec : computesMMM A w s (bit_select_mm A w s) (fun on off b => if b then on else off).
  Proof.
    apply liftMMM. intros a b m p q r Ha Hb Hm. apply sel_mm_ok; auto. intros. apply i_bit_select_ok; auto.
  Qed.
End T.

Example blend_case :
  blend arch_avx2 W16 R128 [0x11112222] [0x33334444] [0xffff0000] = Ok [0x11114444] /\
  blend_m arch_avx512all W32 R512 [7] [9 * 2 ^ 32 + 8] [1] = Ok [9 * 2 ^ 32 + 7] /\
  bit_select arch_neon64 W8 R128 [0xff] [0] [0x3c] = Ok [0x3c].
Proof. repeat split; vm_compute; reflexivity. Qed.
