(** C14: the horizontal reductions reduce_or, reduce_and, reduce_min, reduce_max, reduce_add.
    [fp] is the address of the stack buffer some implementations spill to; [aligned64 fp]: the compiler honours its
    alignment attribute. *)
From Verif Require Import Spec.Reduce Model.ReduceAdd Proof.CppLemmas Proof.ReduceP Proof.ReduceP2 Proof.ReduceP3 Proof.ReduceP4 Proof.ReduceP5 Proof.ReduceP6 Proof.ReduceP7.

Definition aligned64 (fp : Z) : Prop := fp mod 64 = 0.
Lemma al64_16 fp : aligned64 fp -> fp mod 16 = 0.
Proof. unfold aligned64. intros H. apply Z.mod_divide; [lia|]. apply Z.mod_divide in H; [|lia]. destruct H as [k ->]. exists (k * 4). lia. Qed.
Lemma lanes_range w s va : 0 <= w -> Forall (fun x => 0 <= x < 2 ^ w) (lanes w s va).
Proof.
  intros. apply Forall_forall. intros y Hy. unfold lanes in Hy. apply in_flat_map in Hy as (a & _ & Hy). unfold elems in Hy.
  apply in_map_iff in Hy as (i & <- & _). apply lane_range; auto.
Qed.
Lemma lanes_ne w s va : (0 < nl w (rbits s))%nat -> va <> [] -> lanes w s va <> [].
Proof.
  intros Hn Hv H. apply (f_equal (@length Z)) in H. rewrite lanes_len in H. destruct va; [contradiction|]. cbn [length] in H. lia.
Qed.

(** ---------- bitwise reductions: every width, every number of registers ---------- *)
Lemma red_lor w l : 0 <= w -> Forall (fun x => 0 <= x < 2 ^ w) l -> s_reduce_or w l (fold_right Z.lor 0 l).
Proof.
  intros Hw. unfold s_reduce_or. induction 1 as [|x l Hx Hl IH]; cbn [fold_right].
  - split; [pose proof (pow2_pos w); lia|]. intros i _. rewrite Z.bits_0. split; [discriminate|]. intros (x & [] & _).
  - destruct IH as [[R0 R1] IH]. split.
    { split; [apply Z.lor_nonneg; lia|]. assert (Z.lor x (fold_right Z.lor 0 l) = wrap w (Z.lor x (fold_right Z.lor 0 l))) as ->; [|apply wrap_range; auto].
      apply Z.bits_inj'. intros k Hk. rewrite testbit_wrap, !Z.lor_spec by lia.
      rewrite <- (wrap_small w x), <- (wrap_small w (fold_right Z.lor 0 l)) by lia. rewrite !testbit_wrap by lia. destruct (k <? w); reflexivity. }
    intros i Hi. rewrite Z.lor_spec, orb_true_iff, (IH i Hi). split.
    + intros [H|(y & Hy & T)]; [exists x; split; [left; auto|auto]|exists y; split; [right; auto|auto]].
    + intros (y & [<-|Hy] & T); [left; auto|right; exists y; auto].
Qed.
Lemma red_land w l : 0 <= w -> Forall (fun x => 0 <= x < 2 ^ w) l -> s_reduce_and w l (fold_right Z.land (2 ^ w - 1) l).
Proof.
  intros Hw. unfold s_reduce_and. induction 1 as [|x l Hx Hl IH]; cbn [fold_right].
  - split; [pose proof (pow2_pos w); lia|]. intros i Hi. split; [intros _ x []|intros _].
    replace (2 ^ w - 1) with (Z.ones w) by (rewrite Z.ones_equiv; lia). apply Z.ones_spec_low. lia.
  - destruct IH as [[R0 R1] IH]. split.
    { split; [apply Z.land_nonneg; lia|]. assert (Z.land x (fold_right Z.land (2 ^ w - 1) l) = wrap w (Z.land x (fold_right Z.land (2 ^ w - 1) l))) as ->; [|apply wrap_range; auto].
      apply Z.bits_inj'. intros k Hk. rewrite testbit_wrap, !Z.land_spec by lia.
      rewrite <- (wrap_small w x) by lia. rewrite !testbit_wrap by lia. destruct (k <? w); reflexivity. }
    intros i Hi. rewrite Z.land_spec, andb_true_iff, (IH i Hi). split.
    + intros [H1 H2] y [<-|Hy]; auto.
    + intros H. split; [apply H; left; auto|intros y Hy; apply H; right; auto].
Qed.
Theorem reduce_or_spec : forall A fp w s, valid_arch A = true -> aligned64 fp -> avail_int A (wb w) s = true ->
  reduces (wb w) s (reduce_or A fp w s) (s_reduce_or (wb w)).
Proof.
  intros A fp w s HV Hfp HA va Hva Hn. pose proof (wb_pos w). eexists. split; [apply (reduce_bits_ok A fp HV (al64_16 _ Hfp) false); auto|].
  apply red_lor; [lia|apply lanes_range; lia].
Qed.
Theorem reduce_and_spec : forall A fp w s, valid_arch A = true -> aligned64 fp -> avail_int A (wb w) s = true ->
  reduces (wb w) s (reduce_and A fp w s) (s_reduce_and (wb w)).
Proof.
  intros A fp w s HV Hfp HA va Hva Hn. pose proof (wb_pos w). eexists. split; [apply (reduce_bits_ok A fp HV (al64_16 _ Hfp) true); auto|].
  apply red_land; [lia|apply lanes_range; lia].
Qed.

(** ---------- minimum and maximum ---------- *)
(** 64-bit elements: the cases in which the library has an implementation.  int64 vectors: not on MSA, and reduce_min of
    a vector of one register not on 32-bit NEON.  uint64 vectors: reduce_max not on MSA. *)
Definition min64_impl (A : arch) (sg : bool) (one : bool) : Prop :=
  sg = true -> use_msa A = false /\ (use_neon32 A = true -> one = false).
Definition max64_impl (A : arch) : Prop := use_msa A = false.

Theorem reduce_min_partial : forall A fp sg w s va, valid_arch A = true -> aligned64 fp -> avail_int A (wb w) s = true ->
  (w = W64 -> min64_impl A sg (Nat.eqb (length va) 1)) -> wfv s va -> va <> [] ->
  exists r, reduce_min A fp sg w s va = Ok r /\ s_reduce_min sg (wb w) (lanes (wb w) s va) r.
Proof.
  intros A fp sg w s va HV Hfp HA HM Hva Hn. eexists. split; [apply (reduce_mm_ok A fp HV Hfp false); auto|].
  - destruct w; auto. cbn. specialize (HM eq_refl). unfold min64_impl in HM. destruct sg; auto. destruct HM as [-> H]; auto.
    destruct (use_neon32 A); auto. rewrite H; auto.
  - apply (mred_spec false). { apply lanes_ne; auto. destruct w, s; vm_compute; lia. } apply lanes_range. pose proof (wb_pos w). lia.
Qed.
Theorem reduce_max_partial : forall A fp sg w s va, valid_arch A = true -> aligned64 fp -> avail_int A (wb w) s = true ->
  (w = W64 -> max64_impl A) -> wfv s va -> va <> [] ->
  exists r, reduce_max A fp sg w s va = Ok r /\ s_reduce_max sg (wb w) (lanes (wb w) s va) r.
Proof.
  intros A fp sg w s va HV Hfp HA HM Hva Hn. eexists. split; [apply (reduce_mm_ok A fp HV Hfp true); auto|].
  - destruct w; auto. cbn. specialize (HM eq_refl). unfold max64_impl in HM. rewrite HM. destruct sg; reflexivity.
  - apply (mred_spec true). { apply lanes_ne; auto. destruct w, s; vm_compute; lia. } apply lanes_range. pose proof (wb_pos w). lia.
Qed.
(** where the library has no implementation *)
Theorem reduce_min_int64_neon32_refuted : reduce_min arch_neon32 0 true W64 R128 [0] = NotImpl.
Proof. vm_compute. reflexivity. Qed.
Theorem reduce_max_uint64_msa_refuted : reduce_max arch_msa 0 false W64 R128 [0] = NotImpl.
Proof. vm_compute. reflexivity. Qed.
(** on MSA the element is read with extract, wrong for int64 (extract_i64_refuted): the minimum of 2^31, 2^31 *)
Theorem reduce_min_int64_msa_refuted : reduce_min arch_msa 0 true W64 R128 [2 ^ 95 + 2 ^ 31] = Ok (- 2 ^ 31).
Proof. vm_compute. reflexivity. Qed.

(** ---------- sum ---------- *)
(** bits of the result: twice those of an element, for 8 and 16-bit elements *)
Definition sum_bits (w : ew) : Z := match w with W8 => 16 | W16 => 32 | _ => wb w end.
(** vectors longer than a register are made of the widest registers (types/traits) *)
Definition native_shape (A : arch) (w : Z) (s : rsz) (va : vec) : Prop := length va = 1%nat \/ s = fast_int A w.
(** conditions on 8 and 16-bit vectors of several registers: 8-bit ones not with AVX512BW (does not compile); at most
    2^13 registers on the two back ends whose accumulator saturates or overflows beyond that *)
Definition sum_impl (A : arch) (w : ew) (va : vec) : Prop :=
  (w = W8 -> length va = 1%nat \/ use_avx512bw A = false) /\
  (use_null A = true \/ use_altivec A = true -> Z.of_nat (length va) < 2 ^ 13).

Theorem reduce_add_32_64_spec : forall A fp sg w s, valid_arch A = true -> aligned64 fp -> avail_int A (wb w) s = true -> w = W32 \/ w = W64 ->
  reduces (wb w) s (reduce_add A fp sg w s) (s_reduce_add sg (wb w) (wb w)).
Proof.
  intros A fp sg w s HV Hfp HA Hw va Hva Hn. unfold s_reduce_add. eexists. split; [|reflexivity].
  assert (E : reduce_add A fp sg w s va = reduce_add_32_64 A fp sg w s va) by (destruct Hw as [-> | ->]; reflexivity). rewrite E.
  rewrite (reduce_add_32_64_ok A fp HV (al64_16 _ Hfp) w Hw) by auto.
  f_equal. unfold cconv, value. cbn [fst snd]. destruct sg; [|reflexivity]. symmetry. apply sgn_wrap.
Qed.
Theorem reduce_add_8_16_partial : forall A fp sg w s va, valid_arch A = true -> aligned64 fp -> avail_int A (wb w) s = true ->
  w = W8 \/ w = W16 -> native_shape A (wb w) s va -> sum_impl A w va -> wfv s va -> va <> [] ->
  exists r, reduce_add A fp sg w s va = Ok r /\ s_reduce_add sg (wb w) (sum_bits w) (lanes (wb w) s va) r.
Proof.
  intros A fp sg w s va HV Hfp HA Hw HS [HI1 HI2] Hva Hn. unfold s_reduce_add. eexists. split; [|reflexivity]. pose proof (al64_16 _ Hfp) as H16.
  destruct Hw as [-> | ->]; cbn [wb sum_bits] in *; destruct sg; cbn [reduce_add].
  - rewrite reduce_s8_ok by (auto; apply HI1; reflexivity). f_equal. cbn [value]. symmetry. apply sgn_wrap; lia.
  - rewrite reduce_u8_ok by (auto; apply HI1; reflexivity). reflexivity.
  - rewrite reduce_s16_ok; auto. f_equal. cbn [value]. symmetry. apply sgn_wrap; lia.
  - rewrite reduce_u16_ok; auto.
Qed.
(** reduce_add of an 8-bit vector of several registers does not compile with AVX512BW *)
Theorem reduce_add_u8_avx512bw_refuted : valid_arch arch_avx512all = true /\ reduce_add arch_avx512all 0 false W8 R512 [1; 1] = NotImpl.
Proof. split; vm_compute; reflexivity. Qed.

(** non-trivial cases: several registers, the SAD, madd and widening implementations, wrap-around, sign flips *)
Example reduce_case :
  reduce_or arch_sse2 0 W16 R128 [0x0001000200040008; 2 ^ 127] = Ok 0x800f /\
  reduce_and arch_avx2 0 W64 R256 [2 ^ 256 - 1 - 2 ^ 70] = Ok (2 ^ 64 - 1 - 2 ^ 6) /\
  reduce_min arch_sse2 0 true W8 R128 [0x7f807f; 5] = Ok (-128) /\
  reduce_max arch_neon32 0 true W64 R128 [2 ^ 127] = Ok 0 /\
  reduce_add arch_sse2 0 false W8 R128 [2 ^ 128 - 1; 2 ^ 128 - 1] = Ok (2 * 16 * 255) /\
  reduce_add arch_avx2 0 true W16 R256 [0x8000; 0x8000] = Ok (-65536) /\
  reduce_add arch_altivec 0 false W16 R128 [0xffffffff; 1] = Ok 131071 /\
  reduce_add arch_null 0 true W32 R128 [0x7fffffff7fffffff; 3] = Ok 1.
Proof. split; [|split; [|split; [|split; [|split; [|split; [|split]]]]]]; vm_compute; reflexivity. Qed.
