(** C03: abs on integer vectors (unsigned result). *)
From Verif Require Import Spec.Lanewise Proof.AbsP.

(** Every lane of abs(v) is the mathematical absolute value of the signed lane, the most
    negative value giving 2^(w-1) in the unsigned result; on the configurations that compute
    lane by lane in C++ this is claimed for 32- and 64-bit elements only when no lane holds the
    most negative value. *)
Theorem abs_partial : forall A w s, valid_arch A = true -> avail_int A (wb w) s = true ->
  computes1_if (wb w) s
    (fun x => scalar A w s = true -> 32 <= wb w -> x <> 2 ^ (wb w - 1))
    (abs A w s) (s_abs (wb w)).
Proof.
  intros A w s HV HA. apply (lift1p _ _ _ _ (fun x => Z.abs (sgn (wb w) x))); auto.
  - intros x Hx. unfold s_abs. apply wrap_small. pose proof (sgn_range (wb w) x ltac:(auto)) as HS.
    pose proof (wb_pos w). assert (2 ^ wb w = 2 * 2 ^ (wb w - 1)) by (rewrite <- Z.pow_succ_r by lia; f_equal; lia).
    lia.
  - intros a Ha HP. apply i_iabs_ok; auto.
Qed.
Example abs_case : abs arch_sse2 W64 R128 [2 ^ 64 - 5 + 2 ^ 64 * 2 ^ 63] = Ok [5 + 2 ^ 64 * 2 ^ 63]
  /\ abs arch_neon64 W64 R128 [2 ^ 64 - 5 + 2 ^ 64 * 7] = Ok [5 + 2 ^ 64 * 7]
  /\ abs arch_null W16 R128 [2 ^ 15] = Ok [2 ^ 15].
Proof. vm_compute. repeat split; reflexivity. Qed.
(** What is missing: on those configurations the most negative value is undefined behaviour
    (std::abs of an unrepresentable value). *)
Theorem abs_int_min_refuted : exists A w s va,
  valid_arch A = true /\ avail_int A (wb w) s = true /\ wfv s va /\ abs A w s va = UB.
Proof.
  exists arch_null, W32, R128, [2 ^ 31]. repeat split; try reflexivity.
  constructor; [|constructor]. unfold reg. cbn [rbits]. lia.
Qed.
