(** C14, C38: a program followed by a reduction gives the same number on every instruction set. *)
From Verif Require Import Model.RProgram Proof.CppLemmas Proof.ConvertP Proof.ReduceP Thm.T_Reduce Thm.T_ReducePop Thm.T_Program Thm.T_SProgram.

(** the number is determined by the lanes *)
Lemma red_val_unique w o l r r' : red_val (wb w) o l r -> red_val (wb w) o l r' -> r = r'.
Proof.
  assert (0 < wb w) as Hw by (destruct w; reflexivity).
  destruct o; cbn [red_val]; intros H H'.
  - destruct H as [Hr H], H' as [Hr' H']. apply (bits_ext (wb w)); try lia. intros k Hk. specialize (H k Hk). specialize (H' k Hk).
    destruct (Z.testbit r k) eqn:E, (Z.testbit r' k) eqn:E'; try reflexivity; exfalso; intuition discriminate.
  - destruct H as [Hr H], H' as [Hr' H']. apply (bits_ext (wb w)); try lia. intros k Hk. specialize (H k Hk). specialize (H' k Hk).
    destruct (Z.testbit r k) eqn:E, (Z.testbit r' k) eqn:E'; try reflexivity; exfalso; intuition discriminate.
  - destruct H as [HI HL], H' as [HI' HL']. specialize (HL _ HI'). specialize (HL' _ HI). lia.
  - destruct H as [HI HL], H' as [HI' HL']. specialize (HL _ HI'). specialize (HL' _ HI). lia.
  - unfold s_reduce_add in *. lia.
  - unfold s_reduce_popcnt in *. lia.
Qed.
Lemma run_red_ok A fp w T o v : valid_arch A = true -> aligned64 fp -> vsize T -> red_fine w o -> typed A (wb w) T v ->
  exists r, run_red A fp w T o v = Ok r /\ red_val (wb w) o (tlanes A (wb w) T v) r.
Proof.
  intros HV Hfp HT HF [Wv Lv]. unfold tlanes. assert (avail_int A (wb w) (vreg A (wb w) T) = true) as HA by (apply vreg_avail; auto).
  assert (v <> []) as Hn.
  { intros ->. cbn in Lv. destruct HT as [k ->]. pose proof (pow2_pos (Z.of_nat k) ltac:(lia)). lia. }
  destruct o; cbn [run_red red_val red_fine] in *.
  - apply reduce_or_spec; auto.
  - apply reduce_and_spec; auto.
  - apply reduce_min_partial; auto; intros E; contradiction.
  - apply reduce_max_partial; auto; intros E; contradiction.
  - apply reduce_add_32_64_spec; auto.
  - apply reduce_popcnt_spec; auto.
Qed.

(** the reduction of the lanes the program computes *)
Theorem reduced_program_spec : forall A fp w T o e env, valid_arch A = true -> aligned64 fp -> vsize T -> s_fine w e -> red_fine w o ->
  (forall k, typed A (wb w) T (env k)) ->
  exists r, run_rprogram A fp w T o e env = Ok r /\
    red_val (wb w) o (map (s_val (wb w) e (fun k i => nth i (tlanes A (wb w) T (env k)) 0)) (seq 0 (Z.to_nat (T / wb w)))) r.
Proof.
  intros A fp w T o e env HV Hfp HT HF HO He.
  destruct (shuffle_program_spec A w T e env HV HT HF He) as (v & E & Hv & L).
  unfold run_rprogram. rewrite E. cbn [bind]. rewrite <- L. apply run_red_ok; auto.
Qed.
(** any two configurations, wherever the reduction spills *)
Theorem reduced_programs_are_portable : forall A A' fp fp' w T o e env env', valid_arch A = true -> valid_arch A' = true ->
  aligned64 fp -> aligned64 fp' -> vsize T -> s_fine w e -> red_fine w o ->
  (forall k, typed A (wb w) T (env k)) -> (forall k, typed A' (wb w) T (env' k)) ->
  (forall k, tlanes A (wb w) T (env k) = tlanes A' (wb w) T (env' k)) ->
  exists r, run_rprogram A fp w T o e env = Ok r /\ run_rprogram A' fp' w T o e env' = Ok r.
Proof.
  intros A A' fp fp' w T o e env env' HV HV' Hfp Hfp' HT HF HO He He' HE.
  destruct (shuffle_programs_are_portable A A' w T e env env' HV HV' HT HF He He' HE) as (v & v' & E & E' & HL).
  destruct (shuffle_program_spec A w T e env HV HT HF He) as (u & Eu & Hu & _).
  destruct (shuffle_program_spec A' w T e env' HV' HT HF He') as (u' & Eu' & Hu' & _).
  rewrite E in Eu. rewrite E' in Eu'. injection Eu as <-. injection Eu' as <-.
  destruct (run_red_ok A fp w T o v HV Hfp HT HO Hu) as (r & Er & Hr).
  destruct (run_red_ok A' fp' w T o v' HV' Hfp' HT HO Hu') as (r' & Er' & Hr').
  exists r. unfold run_rprogram. rewrite E, E'. cbn [bind]. split; auto.
  rewrite Er'. f_equal. rewrite HL in Hr. apply (red_val_unique w o (tlanes A' (wb w) T v')); auto.
Qed.

(** the dot-product-like sum of products with the mirrored vector: SSE2, NEON, AVX2, null *)
Definition rprog_ex : sexp := SBin BMul (SVar 0) (SSh1 (HPermute4 3 2 1 0) (SVar 1)).
Example rprog_ex_runs : s_fine W32 rprog_ex /\ red_fine W32 (RAdd true) /\
  run_rprogram arch_null 0 W32 256 (RAdd true) rprog_ex sprog_env = Ok 497 /\
  run_rprogram arch_sse2 64 W32 256 (RAdd true) rprog_ex sprog_env = Ok 497 /\
  run_rprogram arch_neon32 0 W32 256 (RAdd true) rprog_ex sprog_env = Ok 497 /\
  run_rprogram arch_avx2 0 W32 256 (RAdd true) rprog_ex (fun k => match sprog_env k with [a; b] => [a + 2 ^ 128 * b] | v => v end) = Ok 497.
Proof.
  split; [unfold rprog_ex; cbn [s_fine h1_fine b_fine]; repeat split; auto; lia|]. split; [left; reflexivity|].
  repeat split; vm_compute; reflexivity.
Qed.
