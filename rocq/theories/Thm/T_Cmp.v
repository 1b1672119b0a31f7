(** C08: comparisons.  C41: comparisons of masks. *)
From Verif Require Import Proof.CmpP.

(** Equality: every configuration, width and register size. *)
Theorem cmp_eq_spec : forall A w s, valid_arch A = true -> avail_int A (wb w) s = true ->
  computesM2 A w s (cmp_eq A w s) Z.eqb.
Proof. intros. apply liftM2. intros. apply i_cmp_eq_ok; auto. Qed.

(** Inequality.  Missing: 64-bit lanes on x86 with SSE2 but neither SSE4.1 nor XOP, where the
    library's code is wrong ([cmp_neq_u64_sse2_refuted]). *)
Theorem cmp_neq_partial : forall A w s, valid_arch A = true -> avail_int A (wb w) s = true ->
  (w = W64 -> s = R128 -> use_sse2 A = true -> use_sse41 A = true \/ xop_com A = true) ->
  computesM2 A w s (cmp_neq A w s) (fun x y => negb (x =? y)).
Proof.
  intros A w s HV HA HB. apply liftM2. intros. apply i_cmp_neq_ok; auto. unfold neq_bad.
  destruct w; try reflexivity. destruct s; try reflexivity.
  destruct (use_sse2 A); [|reflexivity]. destruct (HB eq_refl eq_refl eq_refl) as [-> | ->]; cbn [andb negb]; auto.
  apply andb_false_r.
Qed.
(** equal operands are reported different *)
Theorem cmp_neq_u64_sse2_refuted : exists A va vm,
  valid_arch A = true /\ avail_int A 64 R128 = true /\ wfv R128 va /\
  cmp_neq A W64 R128 va va = Ok vm /\ masks A W64 R128 vm [true; true].
Proof.
  exists arch_sse2, [0], [2 ^ 128 - 1].
  split; [vm_compute; reflexivity|]. split; [vm_compute; reflexivity|].
  split; [|split; [vm_compute; reflexivity|]].
  - constructor; [|constructor]. unfold reg. cbn [rbits]. lia.
  - exists (fun _ => true), []. repeat split; vm_compute; reflexivity.
Qed.

(** 64-bit order comparisons exist where AVX2, XOP, 64-bit NEON, AltiVec, MSA or no SIMD is
    used; on the remaining configurations the library answers SIMDPP_NOT_IMPLEMENTED. *)
Definition order_exists (A : arch) (w : ew) (s : rsz) : Prop :=
  w = W64 -> s = R128 ->
  (use_sse2 A = true -> use_avx2 A = true \/ xop_com A = true) /\ (use_neon A = true -> use_64 A = true).
Lemma order_exists_b A w s : order_exists A w s <-> order_missing A w s = false.
Proof.
  unfold order_exists, order_missing. destruct w; try (split; [reflexivity|discriminate]).
  destruct s; try (split; [reflexivity|discriminate]). unfold use_neon32, xop_com.
  split.
  - intros H. destruct (H eq_refl eq_refl) as [H1 H2].
    destruct (use_sse2 A), (use_avx2 A), (use_xop A), (wa_xop_com A), (use_neon A), (use_64 A);
      cbn in *; try reflexivity; try (specialize (H2 eq_refl); discriminate); destruct (H1 eq_refl); discriminate.
  - intros H _ _. destruct (use_sse2 A), (use_avx2 A), (use_xop A), (wa_xop_com A), (use_neon A), (use_64 A);
      cbn in *; try discriminate; auto.
Qed.

Section Order.
  Variables (A : arch) (w : ew) (s : rsz).
  Hypotheses (HV : valid_arch A = true) (HA : avail_int A (wb w) s = true) (HO : order_exists A w s).
  Let HB : order_missing A w s = false := proj1 (order_exists_b A w s) HO.
  Theorem cmp_lt_unsigned_partial : computesM2 A w s (cmp_lt A false w s) (fun x y => x <? y).
  Proof. apply liftM2. intros. apply (i_cmp_lt_ok A HV false); auto. Qed.
  Theorem cmp_lt_signed_partial : computesM2 A w s (cmp_lt A true w s) (fun x y => sgn (wb w) x <? sgn (wb w) y).
  Proof. apply liftM2. intros. apply (i_cmp_lt_ok A HV true); auto. Qed.
  Theorem cmp_gt_unsigned_partial : computesM2 A w s (cmp_gt A false w s) (fun x y => y <? x).
  Proof. apply liftM2. intros. apply (i_cmp_gt_ok A HV false); auto. Qed.
  Theorem cmp_gt_signed_partial : computesM2 A w s (cmp_gt A true w s) (fun x y => sgn (wb w) y <? sgn (wb w) x).
  Proof. apply liftM2. intros. apply (i_cmp_gt_ok A HV true); auto. Qed.
  Theorem cmp_le_unsigned_partial : computesM2 A w s (cmp_le A false w s) (fun x y => x <=? y).
  Proof. apply liftM2. intros. apply (i_cmp_le_ok A HV false); auto. Qed.
  Theorem cmp_le_signed_partial : computesM2 A w s (cmp_le A true w s) (fun x y => sgn (wb w) x <=? sgn (wb w) y).
  Proof. apply liftM2. intros. apply (i_cmp_le_ok A HV true); auto. Qed.
  Theorem cmp_ge_unsigned_partial : computesM2 A w s (cmp_ge A false w s) (fun x y => y <=? x).
  Proof. apply liftM2. intros. apply (i_cmp_ge_ok A HV false); auto. Qed.
  Theorem cmp_ge_signed_partial : computesM2 A w s (cmp_ge A true w s) (fun x y => sgn (wb w) y <=? sgn (wb w) x).
  Proof. apply liftM2. intros. apply (i_cmp_ge_ok A HV true); auto. Qed.
End Order.

Ltac omiss A HV HB := exfalso; unfold use_neon64 in *;
  destruct (use_avx2 A) eqn:?, (use_64 A) eqn:?, (use_xop A) eqn:?, (wa_xop_com A) eqn:?; rw_in HB;
  rewrite ?andb_false_r, ?andb_true_r in *; cbn [andb orb negb] in *; first [discriminate | vimp HV].

(** Where they do not exist, every call fails, for every operand. *)
Theorem cmp_order64_missing : forall A sg a b, valid_arch A = true -> ~ order_exists A W64 R128 ->
  i_cmp_lt A sg W64 R128 a b = NotImpl /\ i_cmp_gt A sg W64 R128 a b = NotImpl /\
  i_cmp_le A sg W64 R128 a b = NotImpl /\ i_cmp_ge A sg W64 R128 a b = NotImpl.
Proof.
  intros A sg a b HV HO. assert (HB : order_missing A W64 R128 = true).
  { destruct (order_missing A W64 R128) eqn:E; auto. apply order_exists_b in E. contradiction. }
  clear HO. unfold order_missing in HB.
  assert (HX : forall r, r = @NotImpl Z -> (let* m := r in i_bit_not_m A W64 R128 m) = NotImpl) by (intros r ->; reflexivity).
  assert (HL : i_cmp_lt A sg W64 R128 a b = NotImpl).
  { unfold i_cmp_lt, xop_com, use_neon32 in *. fam HV; repeat split_if; first [reflexivity|vimp HV; fail|omiss A HV HB]. }
  assert (HG : i_cmp_gt A sg W64 R128 a b = NotImpl).
  { unfold i_cmp_gt, xop_com, use_neon32 in *. fam HV; repeat split_if; first [reflexivity|vimp HV; fail|omiss A HV HB]. }
  repeat split; auto.
  - unfold i_cmp_le. rewrite HG. unfold xop_com, use_neon32 in *. cbn [bind].
    fam HV; repeat split_if; first [reflexivity|vimp HV; fail|omiss A HV HB].
  - unfold i_cmp_ge. rewrite HL. unfold xop_com, use_neon32 in *. cbn [bind].
    fam HV; repeat split_if; first [reflexivity|vimp HV; fail|omiss A HV HB].
Qed.
Theorem cmp_order64_refuted : exists A va, valid_arch A = true /\ avail_int A 64 R128 = true /\ wfv R128 va /\
  cmp_lt A true W64 R128 va va = NotImpl.
Proof.
  exists arch_sse41, [0]. split; [vm_compute; reflexivity|]. split; [vm_compute; reflexivity|].
  split; [|vm_compute; reflexivity].
  constructor; [|constructor]. unfold reg. cbn [rbits]. lia.
Qed.

(** Masks.  Missing: more than 16 lanes ([cmp_neq_mask_refuted]); cmp_eq of
    mask_int16<32>, mask_int32<4>, mask_int32<8>; configurations without k-masks (the calls do
    not resolve to an implementation). *)
Theorem cmp_eq_mask_partial : forall A w s, mask_cmp_here A w s = true -> rbits s / wb w <= 16 ->
  mask_eq_missing w s = false -> computesMM2 A w s (cmp_eq_mm A w s) Bool.eqb.
Proof. intros A w s HH Hn HM. apply liftMM2. intros a b p q Ha Hb. apply (i_cmp_eq_mm_ok A w s a b p q); auto. Qed.
Theorem cmp_neq_mask_partial : forall A w s, mask_cmp_here A w s = true -> rbits s / wb w <= 16 ->
  computesMM2 A w s (cmp_neq_mm A w s) xorb.
Proof. intros A w s HH Hn. apply liftMM2. intros a b p q Ha Hb. apply (i_cmp_neq_mm_ok A w s a b p q); auto. Qed.

Lemma masks_bits A w s m p bs : mk_int A w s = KBits -> 0 <= m ->
  (forall i, 0 <= i < rbits s / wb w -> Z.testbit m i = p i) ->
  bs = map (fun i => p (Z.of_nat i)) (seq 0 (nl (wb w) (rbits s))) -> masks A w s [m] bs.
Proof.
  intros HK Hm Hp ->. unfold masks. rewrite HK. cbn [masks_k]. exists p, [].
  split; [split; assumption|]. split; [symmetry; apply app_nil_r|reflexivity].
Qed.

(** masks of 64 int8 lanes that differ in lane 16 only compare equal *)
Theorem cmp_neq_mask_refuted : exists A vm vn,
  valid_arch A = true /\ avail_int A 8 R512 = true /\
  masks A W8 R512 vm (repeat false 64) /\ masks A W8 R512 vn (repeat false 16 ++ true :: repeat false 47) /\
  exists vr, cmp_neq_mm A W8 R512 vm vn = Ok vr /\ masks A W8 R512 vr (repeat false 64).
Proof.
  exists arch_avx512all, [0], [2 ^ 16].
  split; [vm_compute; reflexivity|]. split; [vm_compute; reflexivity|]. split; [|split].
  - apply (masks_bits _ _ _ _ (fun _ => false)); [reflexivity|lia| |reflexivity]. intros. apply Z.bits_0.
  - apply (masks_bits _ _ _ _ (fun i => i =? 16)); [reflexivity|lia| |reflexivity].
    intros. rewrite Z.pow2_bits_eqb by lia. apply Z.eqb_sym.
  - exists [0]. split; [vm_compute; reflexivity|].
    apply (masks_bits _ _ _ _ (fun _ => false)); [reflexivity|lia| |reflexivity]. intros. apply Z.bits_0.
Qed.
(** and equal masks of 32 lanes compare unequal in lanes 16..31 *)
Theorem cmp_eq_mask_refuted : exists A vm vr,
  valid_arch A = true /\ avail_int A 8 R256 = true /\ masks A W8 R256 vm (repeat true 32) /\
  cmp_eq_mm A W8 R256 vm vm = Ok vr /\ masks A W8 R256 vr (repeat true 16 ++ repeat false 16).
Proof.
  exists arch_avx512all, [2 ^ 32 - 1], [2 ^ 16 - 1].
  split; [vm_compute; reflexivity|]. split; [vm_compute; reflexivity|]. split; [|split; [vm_compute; reflexivity|]].
  - apply (masks_bits _ _ _ _ (fun _ => true)); [reflexivity|lia| |reflexivity].
    intros i Hi. change (2 ^ 32 - 1) with (ones 32). rewrite testbit_ones by lia. apply Z.ltb_lt.
    change (rbits R256 / wb W8) with 32 in Hi. lia.
  - apply (masks_bits _ _ _ _ (fun i => i <? 16)); [reflexivity|lia| |reflexivity].
    intros i Hi. change (2 ^ 16 - 1) with (ones 16). apply testbit_ones; lia.
Qed.

(** concrete cases: bytes around the sign on SSE2 (bias emulation), 64-bit equality on NEON32 *)
Example cmp_case :
  order_exists arch_sse2 W8 R128 /\
  cmp_lt arch_sse2 false W8 R128 [0x80ff7f01] [0xff807f02] = Ok [0xff0000ff] /\
  cmp_lt arch_sse2 true W8 R128 [0x80ff7f01] [0xff807f02] = Ok [0xff0000ff] /\
  cmp_gt arch_avx2 false W64 R256 [2 ^ 63] [5] = Ok [2 ^ 64 - 1] /\
  cmp_eq arch_neon32 W64 R128 [2 ^ 64 + 7] [2 ^ 65 + 7] = Ok [2 ^ 64 - 1].
Proof. split; [intros; discriminate|]. repeat split; vm_compute; reflexivity. Qed.
