(** C06: minimum and maximum.  C07: averages. *)
From Verif Require Import Proof.MinMaxP.

(** 64-bit min and max exist on AVX2, 64-bit NEON, AltiVec, MSA and without SIMD; elsewhere
    the library answers SIMDPP_NOT_IMPLEMENTED ([min_max64_missing]). *)
Definition minmax_exists (A : arch) (w : ew) (s : rsz) : Prop :=
  w = W64 -> s = R128 -> (use_sse2 A = true -> use_avx2 A = true) /\ (use_neon A = true -> use_neon64 A = true).
Lemma minmax_exists_b A w s : minmax_exists A w s <-> minmax_missing A w s = false.
Proof.
  unfold minmax_exists, minmax_missing. destruct w; try (split; [reflexivity|discriminate]).
  destruct s; try (split; [reflexivity|discriminate]). split.
  - intros H. destruct (H eq_refl eq_refl) as [H1 H2].
    destruct (use_sse2 A), (use_avx2 A), (use_neon A), (use_neon64 A); cbn in *; try reflexivity;
      try (specialize (H1 eq_refl); discriminate); specialize (H2 eq_refl); discriminate.
  - intros H _ _. destruct (use_sse2 A), (use_avx2 A), (use_neon A), (use_neon64 A); cbn in *; try discriminate; auto.
Qed.

Section MM.
  Variables (A : arch) (w : ew) (s : rsz).
  Hypotheses (HV : valid_arch A = true) (HA : avail_int A (wb w) s = true) (HO : minmax_exists A w s).
  Let HB : minmax_missing A w s = false := proj1 (minmax_exists_b A w s) HO.
  Theorem min_unsigned_partial : computes2 (wb w) s (min A false w s) s_min_u.
  Proof.
    apply (lift2w _ _ _ (min_of false (wb w))); auto; [|intros; apply i_min_ok; auto].
    intros x y Hx Hy. unfold min_of, s_min_u. rewrite wrap_small; destruct (Z.ltb_spec x y); lia.
  Qed.
  Theorem max_unsigned_partial : computes2 (wb w) s (max A false w s) s_max_u.
  Proof.
    apply (lift2w _ _ _ (max_of false (wb w))); auto; [|intros; apply i_max_ok; auto].
    intros x y Hx Hy. unfold max_of, s_max_u. rewrite wrap_small; destruct (Z.ltb_spec y x); lia.
  Qed.
  Theorem min_signed_partial : computes2 (wb w) s (min A true w s) (s_min_s (wb w)).
  Proof.
    apply (lift2w _ _ _ (min_of true (wb w))); auto; [|intros; apply i_min_ok; auto].
    intros x y Hx Hy. unfold min_of, s_min_s. rewrite <- (wrap_sgn (wb w)) by auto.
    unfold wrap. f_equal. destruct (Z.ltb_spec (sgn (wb w) x) (sgn (wb w) y)); lia.
  Qed.
  Theorem max_signed_partial : computes2 (wb w) s (max A true w s) (s_max_s (wb w)).
  Proof.
    apply (lift2w _ _ _ (max_of true (wb w))); auto; [|intros; apply i_max_ok; auto].
    intros x y Hx Hy. unfold max_of, s_max_s. rewrite <- (wrap_sgn (wb w)) by auto.
    unfold wrap. f_equal. destruct (Z.ltb_spec (sgn (wb w) y) (sgn (wb w) x)); lia.
  Qed.
End MM.

(** What is missing: on the other configurations every 64-bit call fails, for every operand. *)
Theorem min_max64_missing : forall A sg a b, valid_arch A = true -> ~ minmax_exists A W64 R128 ->
  i_min A sg W64 R128 a b = NotImpl /\ i_max A sg W64 R128 a b = NotImpl.
Proof.
  intros A sg a b HV HO. assert (HB : minmax_missing A W64 R128 = true).
  { destruct (minmax_missing A W64 R128) eqn:E; auto. apply minmax_exists_b in E. contradiction. }
  clear HO. unfold minmax_missing in HB.
  unfold i_min, i_max, minmax_ladder.
  generalize (i_cmp_lt A sg W64 R128 a b) (i_cmp_gt A sg W64 R128 a b). intros c1 c2.
  destruct (use_avx2 A) eqn:EA, (use_neon64 A) eqn:EN, (use_avx512vl A) eqn:EV; cbn [negb] in HB;
  rewrite ?andb_false_r, ?andb_true_r, ?orb_false_r in HB; cbn [orb andb] in HB;
  split; fam HV; repeat split_if;
  first [reflexivity | discriminate HB | rewrite ?G, ?G0, ?G1, ?H2 in HB; discriminate HB | vimp HV | rw_in HB; discriminate HB].
Qed.
Theorem min_max64_refuted : exists A va, valid_arch A = true /\ avail_int A 64 R128 = true /\ wfv R128 va /\
  min A true W64 R128 va va = NotImpl /\ max A false W64 R128 va va = NotImpl.
Proof.
  exists arch_sse41, [0]. split; [vm_compute; reflexivity|]. split; [vm_compute; reflexivity|].
  split; [|split; vm_compute; reflexivity].
  constructor; [|constructor]. unfold reg. cbn [rbits]. lia.
Qed.

(** C07.  avg rounds half up, avg_trunc rounds down; no intermediate overflow.  The API has
    8-, 16- and 32-bit versions. *)
Theorem avg_unsigned_spec : forall A w s, valid_arch A = true -> avail_int A (wb w) s = true -> w <> W64 ->
  computes2 (wb w) s (avg A false w s) s_avg_u.
Proof.
  intros A w s HV HA HW. apply (lift2w _ _ _ (avg_of false (wb w) 1)); auto; [|intros; apply i_avg_ok; auto].
  intros x y Hx Hy. cbn [avg_of]. rewrite wrap_small by (apply shift_avg; auto; lia). unfold s_avg_u.
  rewrite Z.shiftr_div_pow2 by lia. reflexivity.
Qed.
Theorem avg_signed_spec : forall A w s, valid_arch A = true -> avail_int A (wb w) s = true -> w <> W64 ->
  computes2 (wb w) s (avg A true w s) (s_avg_s (wb w)).
Proof.
  intros A w s HV HA HW. apply (lift2w _ _ _ (avg_of true (wb w) 1)); auto; [|intros; apply i_avg_ok; auto].
  intros x y Hx Hy. cbn [avg_of]. unfold s_avg_s. rewrite Z.shiftr_div_pow2 by lia. reflexivity.
Qed.
Theorem avg_trunc_unsigned_spec : forall A w s, valid_arch A = true -> avail_int A (wb w) s = true -> w <> W64 ->
  computes2 (wb w) s (avg_trunc A false w s) s_avg_trunc_u.
Proof.
  intros A w s HV HA HW. apply (lift2w _ _ _ (avg_of false (wb w) 0)); auto; [|intros; apply i_avg_trunc_ok; auto].
  intros x y Hx Hy. cbn [avg_of]. rewrite wrap_small by (apply shift_avg; auto; lia). unfold s_avg_trunc_u.
  rewrite Z.shiftr_div_pow2, Z.add_0_r by lia. reflexivity.
Qed.
Theorem avg_trunc_signed_spec : forall A w s, valid_arch A = true -> avail_int A (wb w) s = true -> w <> W64 ->
  computes2 (wb w) s (avg_trunc A true w s) (s_avg_trunc_s (wb w)).
Proof.
  intros A w s HV HA HW. apply (lift2w _ _ _ (avg_of true (wb w) 0)); auto; [|intros; apply i_avg_trunc_ok; auto].
  intros x y Hx Hy. cbn [avg_of]. unfold s_avg_trunc_s. rewrite Z.shiftr_div_pow2, Z.add_0_r by lia. reflexivity.
Qed.

(** concrete cases: signed bytes on SSE2 (bias), unsigned 16-bit on SSE2 (bias the other way),
    32-bit averages at the top of the range on AVX2, truncation toward minus infinity *)
Example minmax_case :
  minmax_exists arch_sse2 W8 R128 /\
  min arch_sse2 true W8 R128 [0x80ff7f01] [0xff807f02] = Ok [0x80807f01] /\
  max arch_sse2 false W16 R128 [0x8000ffff] [0x7fff0001] = Ok [0x8000ffff] /\
  avg arch_avx2 false W32 R256 [0xffffffff] [0xfffffffe] = Ok [0xffffffff] /\
  avg arch_sse2 true W8 R128 [0xff] [0xfe] = Ok [0xff] /\
  avg_trunc arch_altivec true W8 R128 [0xff] [0xfe] = Ok [0xfe].
Proof. split; [intros; discriminate|]. repeat split; vm_compute; reflexivity. Qed.

(** What the headers promise (core/i_min.h, core/i_max.h: 64-bit elements "supported since AVX2,
    NEON64"), in one statement. *)
Theorem min_max_documented : forall A sg w s, valid_arch A = true -> avail_int A (wb w) s = true ->
  (w = W64 -> use_avx2 A = true \/ use_neon64 A = true) ->
  computes2 (wb w) s (min A sg w s) (if sg then s_min_s (wb w) else s_min_u) /\
  computes2 (wb w) s (max A sg w s) (if sg then s_max_s (wb w) else s_max_u).
Proof.
  intros A sg w s HV HA HD. assert (HO : minmax_exists A w s).
  { intros HW _. destruct (HD HW) as [H|H]; split; intros H'; auto.
    - exfalso. revert H'. fam HV; rw_flags; intros; fcontra.
    - exfalso. unfold use_neon64 in H. revert H H'. fam HV; rw_flags; cbn [andb]; intros; fcontra. }
  destruct sg; split; auto using min_signed_partial, max_signed_partial, min_unsigned_partial, max_unsigned_partial.
Qed.
Example min_max_documented_case : valid_arch arch_avx2 = true /\ use_avx2 arch_avx2 = true /\
  min arch_avx2 true W64 R128 [2 ^ 63 + 5] [2 ^ 64 - 1] = Ok [2 ^ 63 + 5] /\
  max arch_avx2 false W64 R128 [2 ^ 63 + 5] [2 ^ 64 - 1] = Ok [2 ^ 64 - 1].
Proof. repeat split; vm_compute; reflexivity. Qed.
