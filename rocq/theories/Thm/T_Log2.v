(** C57: log2_approx and log2_approx_positive_finite: special values, and the exact result for
    every lane.  Accuracy is the subject of T_Log2Acc.v. *)
From Verif Require Export Proof.Log2P.
From Verif Require Import Proof.FloatsP3 Proof.FArithP Proof.FConvP2 Thm.T_Floats Thm.T_FArith Thm.T_Arith Thm.T_Bitwise Thm.T_Blend Thm.T_Shift Thm.T_Const Thm.T_Cast Thm.T_FConv Base.ShufLift Spec.Masks.
From Coq Require Import Lia.

(** what the documentation calls "special cases": the logarithm of a NaN or of a number below zero
    (also -inf) is a NaN, that of a zero of either sign -inf, that of +inf is +inf *)
Definition log2_special (x r : Z) : Prop :=
  (f_nan 32 x = true -> f_nan 32 r = true) /\
  (f_nan 32 x = false -> f_neg 32 x = true -> f_zero 32 x = false -> f_nan 32 r = true) /\
  (f_zero 32 x = true -> r = 0xff800000) /\
  (x = 0x7f800000 -> r = 0x7f800000).
(** the lane values of the two functions *)
Definition log2_lane (x : Z) : Z :=
  Z.lor (if f_eq 32 x 0 then 0xff800000 else if f_finite 32 x then l2_lane x else x) (if f_lt 32 x 0 then 2 ^ 32 - 1 else 0).

Lemma hM2 A T p op l v l' v' : computesM2_k (mk_flt A false (vregf A T)) W32 (vregf A T) op p ->
  holds (vregf A T) T l v -> holds (vregf A T) T l' v' ->
  exists m, op v v' = Ok m /\ length m = length v /\ masks_k (mk_flt A false (vregf A T)) 32 (vregf A T) m (zipw p l l').
Proof.
  intros H H1 H2. pose proof (same_len _ _ _ _ _ _ H1 H2) as EL. destruct H1 as (W & L & E), H2 as (W' & L' & E').
  destruct (H v v' W W' EL) as (m & Em & Lm & M). exists m. cbn [wb] in M. rewrite <- E, <- E'. auto.
Qed.

Lemma log2_lane_special x : 0 <= x < 2 ^ 32 -> log2_special x (log2_lane x).
Proof.
  intros Hx.
  assert (FN : f_nan 32 x = true -> f_finite 32 x = false).
  { unfold f_nan, f_finite. intros H. apply Z.ltb_lt in H. apply Z.ltb_ge. lia. }
  assert (E0 : f_val 32 0 = 0) by reflexivity.
  split; [|split; [|split]].
  - intros H. unfold log2_lane, f_eq, f_lt, f_unord. rewrite (FN H), H. cbn [orb negb andb]. rewrite Z.lor_0_r. exact H.
  - intros Hn Hs Hz. unfold log2_lane. assert (f_lt 32 x 0 = true) as ->.
    { unfold f_lt, f_unord. rewrite Hn. change (f_nan 32 0) with false. cbn [orb negb andb]. rewrite E0. apply Z.ltb_lt. unfold f_val. rewrite Hs.
      pose proof (zero_val false x Hx Hz). change (fw false) with 32 in *. lia. }
    assert (G : forall y, f_nan 32 (Z.lor y (2 ^ 32 - 1)) = true).
    { intros y. change (2 ^ 32 - 1) with (Z.ones 32). unfold f_nan, f_mag. rewrite <- Z.land_ones by lia. change (32 - 1) with 31.
      assert (Z.land (Z.lor y (Z.ones 32)) (Z.ones 31) = Z.ones 31) as ->; [|reflexivity].
      apply Z.bits_inj'. intros n Hb. rewrite Z.land_spec, Z.lor_spec. destruct (Z.ltb_spec n 31).
      - rewrite !Z.ones_spec_low by lia. rewrite orb_true_r. reflexivity.
      - rewrite (Z.ones_spec_high 31) by lia. apply andb_false_r. }
    apply G.
  - intros Hz. unfold f_zero, f_mag in Hz. apply Z.eqb_eq in Hz. change (32 - 1) with 31 in Hz.
    assert (x = 0 \/ x = 2 ^ 31) as [->| ->].
    { pose proof (Z.div_mod x (2 ^ 31) ltac:(lia)). change (2 ^ 31) with 2147483648 in *. change (2 ^ 32) with 4294967296 in *.
      assert (x / 2147483648 = 0 \/ x / 2147483648 = 1) by lia. lia. }
    + vm_compute. reflexivity.
    + vm_compute. reflexivity.
  - intros ->. reflexivity.
Qed.
Section T.
  Variables (A : arch) (T : Z).
  Hypotheses (HV : valid_arch A = true) (HT : vsize T) (HZ : ftz A false = false).
  Notation sF := (vregf A T).
  Notation sI := (vreg A 32 T).
  Let HF : avail_flt A sF = true := proj1 (fi_regs A T HV HT).
  Let HI : avail_int A 32 sI = true.
  Proof. clear HF. destruct (fi_regs A T HV HT) as [_ [[E H]|(E1 & E2 & _)]]; [rewrite <- E; exact H|rewrite E2; reflexivity]. Qed.

  Ltac step H r E := destruct H as (r & E & ?); rewrite E; cbn [bind]; clear E.
  Theorem log2_positive_finite_exact :
    conv_rel 32 32 T T sF sF (log2_approx_positive_finite A T) all_lanes (is l2_lane).
  Proof.
    intros va W L _. set (l := lanes 32 sF va).
    assert (H0 : holds sF T l va) by (repeat split; auto).
    assert (Rl : forall x, In x l -> 0 <= x < 2 ^ 32).
    { intros x Hx. unfold l, lanes in Hx. apply in_flat_map in Hx. destruct Hx as (a & _ & Hx). unfold elems in Hx.
      apply in_map_iff in Hx. destruct Hx as (i & <- & _). apply lane_range. lia. }
    unfold log2_approx_positive_finite.
    destruct (hcast A T HV HT TFlt (TInt W32) l va H0) as (ai & Eai & Hai). cbn [vty_reg wb] in Hai.
    assert (LI : Z.of_nat (length ai) * rbits sI = T) by apply Hai.
    step (const_holds A T HV ai sI 0x7f800000 LI HI ltac:(lia)) emask E1.
    step (const_holds A T HV ai sI 0x3f800000 LI HI ltac:(lia)) efor1 E1.
    rewrite Eai. cbn [bind].
    step (h1 T sI _ _ _ _ (shift_r_t_unsigned_spec A W32 sI 23 HV HI ltac:(cbn; lia)) Hai) sh E1.
    step (const_holds A T HV ai sI 255 LI HI ltac:(lia)) kff E1.
    step (h2 T sI _ _ _ _ _ _ (bit_and_spec A W32 sI HV HI) H2 H3) ae E1.
    step (const_holds A T HV ai sI 128 LI HI ltac:(lia)) k128 E1.
    step (hcast A T HV HT (TInt W32) (TInt W32) _ _ H4) ei E1.
    step (h2 T sI _ _ _ _ _ _ (sub_spec A W32 sI HV HI) H6 H5) e E1.
    step (hof_int A T HV HT _ _ H7) rs E1.
    step (h3 T sI _ _ _ _ _ _ _ _ (bit_select_spec A W32 sI HV HI) H1 Hai H) mi E1.
    step (hcast A T HV HT (TInt W32) TFlt _ _ H9) man E1. cbn [vty_reg] in H10.
    step (fconst_holds A T HV va sF log2_c2 L HF ltac:(unfold log2_c2; lia)) c2 E1.
    step (h2 T sF _ _ _ _ _ _ (mul_float_partial A false sF HV HF HZ) H11 H10) t1 E1.
    step (fconst_holds A T HV va sF log2_c1 L HF ltac:(unfold log2_c1; lia)) c1 E1.
    step (h2 T sF _ _ _ _ _ _ (add_float_partial A false sF HV HF HZ) H12 H13) t2 E1.
    step (h2 T sF _ _ _ _ _ _ (mul_float_partial A false sF HV HF HZ) H14 H10) t3 E1.
    step (fconst_holds A T HV va sF log2_c0 L HF ltac:(unfold log2_c0; lia)) c0 E1.
    step (h2 T sF _ _ _ _ _ _ (sub_float_partial A false sF HV HF HZ) H15 H16) t4 E1.
    destruct (h2 T sF _ _ _ _ _ _ (add_float_partial A false sF HV HF HZ) H8 H17) as (r & E1 & Wr & Lr & Er).
    exists r. split; [exact E1|]. split; [exact Wr|]. split; [exact Lr|]. rewrite Er.
    assert (N : length l = Z.to_nat (T / 32)) by (eapply holds_len; eauto).
    assert (Nm : forall g : Z -> Z, length (map g l) = Z.to_nat (T / 32)) by (intros; rewrite map_length; exact N).
    change (wb W32) with 32. change (fw false) with 32.
    rewrite !(zipw3_repeat _ _ _ _ _ N).
    rewrite (zipw_repeat_r Z.land 255 (map _ l) _ (Nm _)), map_map.
    rewrite (zipw_repeat_r (s_sub 32) 128 (map _ l) _ (Nm _)), !map_map.
    rewrite (zipw_repeat (f_mul 32) log2_c2 (map _ l) _ (Nm _)), map_map.
    rewrite (zipw_repeat_r (f_add 32) log2_c1 (map _ l) _ (Nm _)), map_map.
    rewrite (zipw_map (f_mul 32)).
    rewrite (zipw_repeat_r (f_sub 32) log2_c0 (map _ l) _ (Nm _)), map_map.
    rewrite (zipw_map (f_add 32)).
    clear - Rl. revert Rl. generalize l. induction l0 as [|x l0 IH]; intros Rl; [constructor|]. cbn [map]. constructor.
    2:{ apply IH. intros y Hy. apply Rl. right. exact Hy. }
    unfold is. assert (Hx : 0 <= x < 2 ^ 32) by (apply Rl; left; reflexivity).
    rewrite l2_int, l2_man by exact Hx. reflexivity.
  Qed.

  Theorem log2_exact : conv_rel 32 32 T T sF sF (log2_approx A T) all_lanes (is log2_lane).
  Proof.
    intros va W L D. set (l := lanes 32 sF va).
    assert (H0 : holds sF T l va) by (repeat split; auto).
    assert (N : length l = Z.to_nat (T / 32)) by (eapply holds_len; eauto).
    unfold log2_approx.
    step (fconst_holds A T HV va sF 0xff800000 L HF ltac:(lia)) ninf E1.
    step (fconst_holds A T HV va sF 0 L HF ltac:(lia)) z E1.
    destruct (hM2 _ _ _ _ _ _ _ _ (cmp_lt_float_partial A false sF HV HF HZ) H0 H1) as (nm & E1 & Ln & Mn). rewrite E1. cbn [bind].
    destruct (hM2 _ _ _ _ _ _ _ _ (cmp_eq_float_partial A false sF HV HF HZ) H0 H1) as (zm & E2 & Lz & Mz). rewrite E2. cbn [bind].
    destruct (isfinite_spec A false sF HV HF va W) as (fm & E3 & Lf & Mf). rewrite E3. cbn [bind].
    destruct (log2_positive_finite_exact va W L D) as (r0 & E4 & W0 & L0 & F0). rewrite E4. cbn [bind].
    assert (K0 : lanes 32 sF r0 = map l2_lane l).
    { clear - F0. fold l in F0. induction F0 as [|x y xs ys Hh _ IH]; [reflexivity|]. cbn [map]. rewrite IH. f_equal. exact Hh. }
    assert (HL0 : length r0 = length va).
    { apply (same_len T sF (map l2_lane l) r0 l va); [repeat split; auto|exact H0]. }
    destruct (blend_float_mask_spec A false sF HV HF r0 va fm _ W0 W Mf HL0 ltac:(congruence)) as (r1 & E5 & W1 & L1 & K1). rewrite E5. cbn [bind].
    assert (HLn : length ninf = length va) by (eapply same_len; eauto).
    destruct (blend_float_mask_spec A false sF HV HF ninf r1 zm _ (proj1 H) W1 Mz ltac:(congruence) ltac:(congruence)) as (r2 & E6 & W2 & L2 & K2). rewrite E6. cbn [bind].
    destruct (unmask_float_spec A false sF HF nm _ Mn) as (um & E7 & W7 & L7 & K7). rewrite E7. cbn [bind].
    destruct (bit_or_float_spec A false sF HV HF r2 um W2 W7 ltac:(congruence)) as (r & E8 & W8 & L8 & K8).
    exists r. split; [exact E8|]. split; [exact W8|]. split; [congruence|].
    change (wb (few false)) with 32 in *. change (wb W32) with 32 in *. change (fw false) with 32 in *.
    rewrite K8, K2, K7, K1, K0. destruct H as (_ & _ & ->). fold l.
    rewrite !zipw_repeat_r by exact N.
    clear - N. rewrite <- N. clear N. induction l as [|x l IH]; [constructor|]. cbn [length repeat map zipw zipw3]. constructor; [|exact IH].
    unfold is, log2_lane. reflexivity.
  Qed.
  (** C57: the special values of log2_approx, on every configuration that does not flush
      denormals to zero *)
  Theorem log2_special_partial : conv_rel 32 32 T T sF sF (log2_approx A T) all_lanes log2_special.
  Proof.
    intros va W L D. destruct (log2_exact va W L D) as (r & E & Wr & Lr & F). exists r. repeat (split; [assumption|]).
    assert (Rl : forall x, In x (lanes 32 sF va) -> 0 <= x < 2 ^ 32).
    { intros x Hx. unfold lanes in Hx. apply in_flat_map in Hx. destruct Hx as (a & _ & Hx). unfold elems in Hx.
      apply in_map_iff in Hx. destruct Hx as (i & <- & _). apply lane_range. lia. }
    revert Rl F. clear. generalize (lanes 32 sF va) (lanes 32 sF r). intros l l' Rl F. induction F as [|x y l l' H F IH]; constructor.
    2:{ apply IH. intros z Hz. apply Rl. right. exact Hz. }
    specialize (Rl x (or_introl eq_refl)). unfold is in H. subst y. apply log2_lane_special. exact Rl.
  Qed.
End T.

(** "handles full range of inputs" does not extend to denormals: for the smallest one, 2^-149, the
    result is above -128. *)
Theorem log2_denormal_refuted : exists r,
  f_abs_val 32 1 = 1 /\ log2_approx arch_null 128 [1] = Ok [0xff800000ff800000ff80000000000000 + r] /\
  f_finite 32 r = true /\ -128 * 2 ^ 149 < f_val 32 r.
Proof. exists 0xc2fdfd78. repeat split; vm_compute; reflexivity. Qed.
(** a non-trivial case, AVX without 256-bit integers: NaN, -1, +0, +inf and then 2, 8, 10, 0.1 *)
Example log2_case : valid_arch arch_avx = true /\ ftz arch_avx false = false /\ use_avx2 arch_avx = false /\
  match log2_approx arch_avx 256 [0x3dcccccd4120000041000000400000007f80000000000000bf8000007fc00000] with
  | Ok v => lanes 32 R256 v = [0x7fc00000; 2 ^ 32 - 1; 0xff800000; 0x7f800000; 0x3f80a1f4; 0x404050fa; 0x40544bea; 0xc0545da8]
  | _ => False end.
Proof. vm_compute. repeat split. Qed.
