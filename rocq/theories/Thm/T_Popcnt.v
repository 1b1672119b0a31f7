(** C13: popcnt. *)
From Verif Require Import Spec.Counting Model.Popcnt Proof.PopcntP Proof.PopcntP2 Proof.PopcntP3.

Theorem popcnt_spec : forall A w s, valid_arch A = true -> avail_int A (wb w) s = true ->
  computes1 (wb w) s (popcnt A w s) (s_popcnt (wb w)).
Proof.
  intros A w s HV HA. apply (lift1w _ _ _ (s_popcnt (wb w))); auto using wok_lib.
  - intros. rewrite s_popcnt_cnt. apply cnt_wrap. pose proof (wb_pos w). lia.
  - intros. apply i_popcnt_ok; auto.
Qed.
(** non-trivial cases: SWAR on SSE2 and on AVX2, the POPCNT instruction, scalar code *)
Example popcnt_case :
  popcnt arch_sse2 W8 R128 [0xff7f0100] = Ok [0x08070100] /\
  popcnt arch_sse2 W32 R128 [0xffffffff0000f0f1] = Ok [0x2000000009] /\
  popcnt arch_avx2 W64 R256 [2 ^ 256 - 1] = Ok [0x40 * (1 + 2 ^ 64 + 2 ^ 128 + 2 ^ 192)] /\
  popcnt arch_null W64 R128 [2 ^ 128 - 2 ^ 61] = Ok [3 + 2 ^ 70] /\
  s_popcnt 64 (2 ^ 64 - 2 ^ 61) = 3.
Proof. split; [|split; [|split; [|split]]]; vm_compute; reflexivity. Qed.
