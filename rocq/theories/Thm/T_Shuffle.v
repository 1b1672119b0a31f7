(** C16 (permutes), C17 (zip), C19 (move), C39 (splatN): lane rearrangements. *)
From Verif Require Import Proof.PermuteP Proof.MoveP Model.ShufApi.

Lemma gok_en e s : gok (eb e) (rbits s) (en e) = true. Proof. destruct e, s; reflexivity. Qed.
Lemma gok2 e s : gok (eb e) (rbits s) 2 = true. Proof. destruct e, s; reflexivity. Qed.
Lemma gok4 e s : e = I16 \/ e = I32 \/ e = F32 -> gok (eb e) (rbits s) 4 = true.
Proof. intros [->|[->| ->]]; destruct s; reflexivity. Qed.
Lemma in_range_intro n L : (forall k, 0 <= k < n -> match L k with None => True | Some (_, j) => 0 <= j < n end) -> in_range n L = true.
Proof.
  intros H. unfold in_range. apply forallb_forall. intros k Hk. apply zrange_in in Hk. specialize (H k Hk).
  destruct (L k) as [[m j]|]; [|reflexivity]. apply andb_true_intro. split; [apply Z.leb_le|apply Z.ltb_lt]; lia.
Qed.
Ltac inr := apply in_range_intro; intros k Hk;
  unfold p_move_l, p_move_r, p_zip, p_zip_lo, p_zip_hi, p_permute2, p_permute4, p_splat, p_unzip_lo, p_unzip_hi, p_align,
    p_shuffle2x2, p_shuffle4x2, p_shuffle1, p_shuffle2, p_cat;
  repeat match goal with |- context [if ?c then _ else _] => destruct c eqn:? end;
  repeat match goal with H : (_ <? _) = true |- _ => apply Z.ltb_lt in H | H : (_ <? _) = false |- _ => apply Z.ltb_ge in H
    | H : (_ <=? _) = true |- _ => apply Z.leb_le in H | H : (_ <=? _) = false |- _ => apply Z.leb_gt in H end;
  try (match goal with e : et |- _ => destruct e end; change (128 / 8) with 16 in *); try exact I; try lia.
Lemma en_pos e : 0 < en e /\ en e = 2 * (en e / 2). Proof. destruct e; cbn; lia. Qed.

Theorem move_l_spec : forall A e s sh, valid_arch A = true -> avail_et A e s = true -> 0 <= sh <= en e ->
  computesS1 (eb e) s (en e) (move_l A e s sh) (p_move_l (en e) sh).
Proof.
  intros A e s sh HV HA Hsh. pose proof (en_pos e). apply liftS1; [apply gok_en|inr|].
  intros. apply i_move_l_wrapper_ok; auto.
Qed.
Theorem move_r_spec : forall A e s sh, valid_arch A = true -> avail_et A e s = true -> 0 <= sh <= en e ->
  computesS1 (eb e) s (en e) (move_r A e s sh) (p_move_r (en e) sh).
Proof.
  intros A e s sh HV HA Hsh. pose proof (en_pos e). apply liftS1; [apply gok_en|inr|].
  intros. apply i_move_r_wrapper_ok; auto.
Qed.
Theorem zip_lo_spec : forall A e s, valid_arch A = true -> avail_et A e s = true ->
  computesS2 (eb e) s (en e) (zip_lo A e s) (p_zip_lo (en e)).
Proof.
  intros A e s HV HA. apply liftS2; [apply gok_en|destruct e; reflexivity|].
  intros. apply (i_zip_ok A e s false); auto.
Qed.
Theorem zip_hi_spec : forall A e s, valid_arch A = true -> avail_et A e s = true ->
  computesS2 (eb e) s (en e) (zip_hi A e s) (p_zip_hi (en e)).
Proof.
  intros A e s HV HA. apply liftS2; [apply gok_en|destruct e; reflexivity|].
  intros. apply (i_zip_ok A e s true); auto.
Qed.
Theorem permute2_spec : forall A e s s0 s1, valid_arch A = true -> avail_et A e s = true -> e <> I8 ->
  0 <= s0 < 2 -> 0 <= s1 < 2 ->
  computesS1 (eb e) s 2 (permute2 A e s s0 s1) (p_permute2 s0 s1).
Proof.
  intros A e s s0 s1 HV HA He H0 H1. apply liftS1; [apply gok2|inr|].
  intros. apply i_permute2_ok; auto.
Qed.
(** 16- and 32-bit elements *)
Theorem permute4_spec : forall A e s s0 s1 s2 s3, valid_arch A = true -> avail_et A e s = true ->
  e = I16 \/ e = I32 \/ e = F32 ->
  0 <= s0 < 4 -> 0 <= s1 < 4 -> 0 <= s2 < 4 -> 0 <= s3 < 4 ->
  computesS1 (eb e) s 4 (permute4 A e s s0 s1 s2 s3) (p_permute4 s0 s1 s2 s3).
Proof.
  intros A e s s0 s1 s2 s3 HV HA He H0 H1 H2 H3. apply liftS1; [apply gok4; auto|inr|].
  intros. apply i_permute4_ok; auto.
Qed.
Theorem splat_n_spec : forall A e s i, valid_arch A = true -> avail_et A e s = true -> 0 <= i < en e ->
  computesS1 (eb e) s (en e) (splat_n A e s i) (p_splat i).
Proof.
  intros A e s i HV HA Hi. apply liftS1; [apply gok_en|inr|].
  intros. apply i_splat_n_ok; auto.
Qed.
Example shuffle_case :
  permute4 arch_neon64 I16 R128 3 1 0 2 [0x0004000300020001] = Ok [0x0003000100020004] /\
  zip_hi arch_altivec I8 R128 [2 ^ 127] [2 ^ 120] = Ok [2 ^ 119 + 2 ^ 120] /\
  move_l arch_avx2 I32 R256 3 [2 ^ 96 + 2 ^ 224] = Ok [1 + 2 ^ 128] /\
  splat_n arch_ssse3 I8 R128 1 [0x0502] = Ok [0x05050505050505050505050505050505].
Proof. repeat split; vm_compute; reflexivity. Qed.
