(** C01, C02, C03 (neg): integer addition, subtraction, saturation, negation. *)
From Verif Require Import Proof.ArithP.

(** C01. add and sub are, in every lane, addition and subtraction modulo 2^width, for
    every instruction set, register size and number of registers. *)
Theorem add_spec : forall A w s, valid_arch A = true -> avail_int A (wb w) s = true ->
  computes2 (wb w) s (add A w s) (s_add (wb w)).
Proof.
  intros A w s HV HA. apply (lift2w _ _ _ Z.add); auto.
  intros. apply i_add_ok; auto.
Qed.
Theorem sub_spec : forall A w s, valid_arch A = true -> avail_int A (wb w) s = true ->
  computes2 (wb w) s (sub A w s) (s_sub (wb w)).
Proof.
  intros A w s HV HA. apply (lift2w _ _ _ Z.sub); auto.
  intros. apply i_sub_ok; auto.
Qed.
(** a 2-register vector on SSE2, carries do not cross lanes *)
Example add_case : add arch_sse2 W8 R128 [255; 2 ^ 127 + 1] [1; 2 ^ 127 + 2] = Ok [0; 3].
Proof. vm_compute. reflexivity. Qed.
Example sub_case : sub arch_null W16 R128 [0] [1] = Ok [65535].
Proof. vm_compute. reflexivity. Qed.

(** C02. *)
Lemma clamp_satu w x : 0 < w -> wrap w (satu w x) = clamp 0 (2 ^ w - 1) x.
Proof.
  intros Hw. pose proof (pow2_pos w ltac:(lia)). unfold satu, clamp.
  destruct (Z.ltb_spec x 0); [|destruct (Z.ltb_spec (2 ^ w - 1) x)]; rewrite wrap_small; lia.
Qed.
Lemma clamp_sats w x : 0 < w ->
  wrap w (sats w x) = (clamp (- 2 ^ (w - 1)) (2 ^ (w - 1) - 1) x) mod 2 ^ w.
Proof.
  intros Hw. pose proof (pow2_pos (w - 1) ltac:(lia)). unfold wrap. f_equal. unfold sats, clamp.
  destruct (Z.ltb_spec x (- 2 ^ (w - 1))); [|destruct (Z.ltb_spec (2 ^ (w - 1) - 1) x)]; lia.
Qed.
Theorem add_sat_u_spec : forall A w s, valid_arch A = true -> avail_int A (wb w) s = true ->
  w = W8 \/ w = W16 -> computes2 (wb w) s (uadd_sat A w s) (s_add_sat_u (wb w)).
Proof.
  intros A w s HV HA Hw. eapply lift2w; auto; [|intros; apply i_uadd_sat_ok; auto; destruct Hw; subst; reflexivity].
  intros. apply clamp_satu; auto.
Qed.
Theorem sub_sat_u_spec : forall A w s, valid_arch A = true -> avail_int A (wb w) s = true ->
  w = W8 \/ w = W16 -> computes2 (wb w) s (usub_sat A w s) (s_sub_sat_u (wb w)).
Proof.
  intros A w s HV HA Hw. eapply lift2w; auto; [|intros; apply i_usub_sat_ok; auto; destruct Hw; subst; reflexivity].
  intros. apply clamp_satu; auto.
Qed.
Theorem add_sat_s_spec : forall A w s, valid_arch A = true -> avail_int A (wb w) s = true ->
  w = W8 \/ w = W16 -> computes2 (wb w) s (iadd_sat A w s) (s_add_sat_s (wb w)).
Proof.
  intros A w s HV HA Hw. eapply lift2w; auto; [|intros; apply i_iadd_sat_ok; auto; destruct Hw; subst; reflexivity].
  intros. apply clamp_sats; auto.
Qed.
Theorem sub_sat_s_spec : forall A w s, valid_arch A = true -> avail_int A (wb w) s = true ->
  w = W8 \/ w = W16 -> computes2 (wb w) s (isub_sat A w s) (s_sub_sat_s (wb w)).
Proof.
  intros A w s HV HA Hw. eapply lift2w; auto; [|intros; apply i_isub_sat_ok; auto; destruct Hw; subst; reflexivity].
  intros. apply clamp_sats; auto.
Qed.
Example sat_case : isub_sat arch_null W8 R128 [0x80] [1] = Ok [0x80] /\
  uadd_sat arch_neon64 W16 R128 [0xfff0] [0x20] = Ok [0xffff].
Proof. split; vm_compute; reflexivity. Qed.

(** C03, neg: on SIMD hardware for every lane; where the library runs scalar C++ on 32- and
    64-bit lanes, for every lane except the most negative value. *)
Theorem neg_partial : forall A w s, valid_arch A = true -> avail_int A (wb w) s = true ->
  computes1_if (wb w) s
    (fun x => scalar A w s = true -> 32 <= wb w -> x <> 2 ^ (wb w - 1))
    (neg A w s) (s_neg (wb w)).
Proof.
  intros A w s HV HA. apply (lift1p _ _ _ _ Z.opp); auto.
  intros a Ha HP. apply i_neg_ok; auto.
Qed.
Example neg_case : neg arch_avx512all W64 R512 [1] = Ok [2 ^ 64 - 1].
Proof. vm_compute. reflexivity. Qed.
(** What is missing: on those configurations the most negative value is signed overflow. *)
Theorem neg_int_min_refuted : exists A w s va,
  valid_arch A = true /\ avail_int A (wb w) s = true /\ wfv s va /\ neg A w s va = UB.
Proof.
  exists arch_null, W32, R128, [2 ^ 31]. repeat split; try reflexivity.
  constructor; [|constructor]. unfold reg. cbn [rbits]. lia.
Qed.
