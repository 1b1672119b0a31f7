(** Programs mixing float vectors, integer vectors and masks on every configuration, units that
    flush denormals included: each configuration has one lane function per operator, and every
    program of every length computes its lanes through them.  (C37, C38, C48, C59) *)
From Verif Require Import Spec.Masks Spec.FUnits Model.FProgram Model.FMinMax Proof.ConvertP Proof.FloatsP Proof.FloatsP3 Proof.FArithP Proof.FMinMaxP Proof.FConvP2 Proof.Log2P
  Proof.NewtonP Thm.T_Blend Thm.T_Bitwise Thm.T_Floats Thm.T_FArith Thm.T_FConv Thm.T_Cast Thm.T_Program Thm.T_FProgram.
From Coq Require Import Lia.

(** division and square root on every configuration, whatever the estimates *)
Section D.
  Variables (est : Z -> Z) (A : arch) (d : bool) (s : rsz).
  Hypotheses (HV : valid_arch A = true) (HA : avail_flt A s = true).
  Theorem div_float_any : computes2 (fw d) s (div_f est A d s) (unit_div est A d).
  Proof. apply lift2; [apply fwok|intros; apply unit_div_ran; auto|intros; apply fdiv_any; auto]. Qed.
  Theorem sqrt_float_any : computes1 (fw d) s (sqrt_f est A d s) (unit_sqrt est A d).
  Proof. apply lift1; [apply fwok|intros; apply unit_sqrt_ran; auto|intros; apply fsqrt_any; auto]. Qed.
  Theorem mul_float_any : computes2 (fw d) s (mul_f A d s) (unit_mul A d).
  Proof. apply lift2; [apply fwok|intros; apply unit_mul_ran; auto|intros; apply fmul_unit; auto]. Qed.
End D.

Definition the_unit (est : Z -> Z) (A : arch) (d : bool) : lane_ops := {|
  l_un := fun o x => match o with FSqrt => unit_sqrt est A d x | _ => fu_val (fw d) o x end;
  l_bin := fun o x y => match o with
    | FAdd => denorm0 A d (f_add (fw d) (denorm0 A d x) (denorm0 A d y))
    | FSub => denorm0 A d (f_sub (fw d) (denorm0 A d x) (denorm0 A d y))
    | FMul => unit_mul A d x y
    | FDiv => unit_div est A d x y
    | FMin => lane_min A d x y
    | FMax => lane_max A d x y
    | _ => fb_val (fw d) o x y end;
  l_cmp := fun o x y => match o with FIsNan2 => fc_val (fw d) o x y | _ => fc_val (fw d) o (denorm0 A d x) (denorm0 A d y) end |}.

Lemma the_unit_is est A d : valid_arch A = true -> is_unit est A d (the_unit est A d).
Proof.
  intros HV. assert (HA : avail_flt A R128 = true) by reflexivity.
  destruct (lane_min_ok A d HV R128 HA) as (_ & _ & Cmin). destruct (lane_max_ok A d HV R128 HA) as (_ & _ & Cmax).
  split; intros; rewrite ?fbits_fw; cbn [the_unit l_un l_bin l_cmp]; try reflexivity.
  - destruct o; first [contradiction|reflexivity].
  - rewrite !denorm0_fz. apply Cmin.
  - rewrite !denorm0_fz. apply Cmax.
  - cbn [In] in H. destruct o; try reflexivity; exfalso; intuition discriminate.
  - destruct o; first [contradiction|reflexivity].
Qed.

Section F.
  Variables (est : Z -> Z) (A : arch) (d : bool) (s : rsz) (n : nat).
  Hypotheses (HV : valid_arch A = true) (HA : avail_flt A s = true).
  Notation w := (fw d).
  Notation E := (few d).
  Notation L := (the_unit est A d).
  Lemma c2_ext op (g h : Z -> Z -> Z) : (forall x y, g x y = h x y) -> computes2 w s op g -> computes2 w s op h.
  Proof.
    intros X HC va vb Wa Wb Hl. destruct (HC va vb Wa Wb Hl) as (r & Er & Wr & Lr & Evr). exists r. split; auto. split; auto. split; auto.
    rewrite Evr. clear -X. generalize (lanes w s va) (lanes w s vb). intros la. induction la as [|p la IH]; intros [|q lb]; try reflexivity.
    cbn [zipw]. rewrite X, IH. reflexivity.
  Qed.
  Lemma cM_ext op (g h : Z -> Z -> bool) : (forall x y, g x y = h x y) -> computesM2_k (mk_flt A d s) E s op g -> computesM2_k (mk_flt A d s) E s op h.
  Proof.
    intros X HC va vb Wa Wb Hl. destruct (HC va vb Wa Wb Hl) as (r & Er & Lr & Mr). exists r. split; auto. split; auto.
    assert (forall la lb, zipw g la lb = zipw h la lb) as <-; [|exact Mr].
    clear -X. intros la. induction la as [|p la IH]; intros [|q lb]; try reflexivity. cbn [zipw]. rewrite X, IH. reflexivity.
  Qed.
  Lemma gun_ok o v f : isv E s n v f -> exists r, frun_u est A d s o v = Ok r /\ isv E s n r (fun i => l_un L o (f i)).
  Proof.
    intros Hv. refine (c1 E s n (frun_u est A d s o) (l_un L o) v f _ Hv). destruct o; unfold frun_u; cbn [the_unit l_un fu_val].
    - apply neg_float_spec; auto.
    - apply abs_float_spec; auto.
    - apply sign_float_spec; auto.
    - apply bit_not_float_spec; auto.
    - apply sqrt_float_any; auto.
  Qed.
  Lemma gbin_ok o v1 v2 f1 f2 : isv E s n v1 f1 -> isv E s n v2 f2 ->
    exists r, frun_b est A d s o v1 v2 = Ok r /\ isv E s n r (fun i => l_bin L o (f1 i) (f2 i)).
  Proof.
    intros Hv Hu. refine (c2 E s n (frun_b est A d s o) (l_bin L o) v1 v2 f1 f2 _ Hv Hu). destruct o; unfold frun_b; cbn [the_unit l_bin fb_val].
    - eapply c2_ext; [|apply add_float_flush; auto]. intros x y. cbn beta. rewrite !denorm0_fz. reflexivity.
    - eapply c2_ext; [|apply sub_float_flush; auto]. intros x y. cbn beta. rewrite !denorm0_fz. reflexivity.
    - apply mul_float_any; auto.
    - apply div_float_any; auto.
    - destruct (lane_min_ok A d HV s HA) as (F & R & _). apply lift2; auto.
    - destruct (lane_max_ok A d HV s HA) as (F & R & _). apply lift2; auto.
    - apply bit_and_float_spec; auto.
    - apply bit_or_float_spec; auto.
    - apply bit_xor_float_spec; auto.
    - apply bit_andnot_float_spec; auto.
    - apply copysign_spec; auto.
  Qed.
  Lemma gcmp_ok o v1 v2 f1 f2 : isv E s n v1 f1 -> isv E s n v2 f2 ->
    exists r, frun_c A d s o v1 v2 = Ok r /\ ismf A d s n r (fun i => l_cmp L o (f1 i) (f2 i)).
  Proof.
    intros Hv Hu. refine (fm2 A d s n (frun_c A d s o) (l_cmp L o) v1 v2 f1 f2 _ Hv Hu).
    destruct o; unfold frun_c; cbn [the_unit l_cmp fc_val]; [eapply cM_ext; [|apply cmp_eq_float_flush; auto]|eapply cM_ext; [|apply cmp_neq_float_flush; auto]
      |eapply cM_ext; [|apply cmp_lt_float_flush; auto]|eapply cM_ext; [|apply cmp_le_float_flush; auto]
      |eapply cM_ext; [|apply cmp_gt_float_flush; auto]|eapply cM_ext; [|apply cmp_ge_float_flush; auto]|apply isnan2_spec; auto];
    intros x y; cbn beta; rewrite !denorm0_fz; reflexivity.
  Qed.
End F.

Section R.
  Variables (est : Z -> Z) (A : arch) (d : bool) (T : Z).
  Hypotheses (HV : valid_arch A = true) (HT : vsize T).
  Notation w := (fw d).
  Notation E := (few d).
  Notation sF := (vregf A T).
  Notation sI := (vreg A w T).
  Notation nF := (Z.to_nat (T / rbits sF)).
  Notation nI := (vlen A w T).
  Notation L := (the_unit est A d).
  Let HAF : avail_flt A sF = true := proj1 (fi_regs A T HV HT).
  Let HAI : avail_int A (wb E) sI = true. Proof. apply vreg_avail; auto. Qed.
  Hypotheses (HnF : Z.of_nat nF * rbits sF = T) (HnI : Z.of_nat nI * rbits sI = T).
  Variables (fe ie : nat -> vec) (fval ival : nat -> nat -> Z).
  Hypotheses (Hfe : forall k, isv E sF nF (fe k) (fval k)) (Hie : forall k, isv E sI nI (ie k) (ival k)).
  Lemma gvars_ok :
    (forall e, gf_fine d e -> exists r, frun est A d T e fe ie = Ok r /\ isv E sF nF r (fun i => gf_value L w e (fun k => fval k i) (fun k => ival k i))) /\
    (forall m, gm_fine d m -> exists r, frun_m est A d T m fe ie = Ok r /\ ismf A d sF nF r (fun i => gm_value L w m (fun k => fval k i) (fun k => ival k i))) /\
    (forall e, gi_fine d e -> exists r, irun est A d T e fe ie = Ok r /\ isv E sI nI r (fun i => gi_value L w e (fun k => fval k i) (fun k => ival k i))) /\
    (forall m, gim_fine d m -> exists r, irun_m est A d T m fe ie = Ok r /\ ism A E sI nI r (fun i => gim_value L w m (fun k => fval k i) (fun k => ival k i))).
  Proof.
    apply fprog_mut; cbn [gf_fine gm_fine gi_fine gim_fine frun frun_m irun irun_m gf_value gm_value gi_value gim_value]; change (few' d) with E.
    - intros k _. exists (fe k). split; [reflexivity|apply Hfe].
    - intros c _. apply fconst_ok; auto.
    - intros o e IH He. destruct (IH He) as (v & Ev & Hv). rewrite Ev. cbn [bind]. apply (gun_ok est A d sF nF HV HAF o v _ Hv).
    - intros o e1 IH1 e2 IH2 (H1 & H2). destruct (IH1 H1) as (v1 & E1 & Hv1). destruct (IH2 H2) as (v2 & E2 & Hv2).
      rewrite E1, E2. cbn [bind]. apply (gbin_ok est A d sF nF HV HAF o _ _ _ _ Hv1 Hv2).
    - intros e1 IH1 e2 IH2 m IHm (H1 & H2 & Hm). destruct (IH1 H1) as (v1 & E1 & Hv1). destruct (IH2 H2) as (v2 & E2 & Hv2). destruct (IHm Hm) as (vm & Em & Hvm).
      rewrite E1, E2, Em. cbn [bind]. apply (fblend_ok A d sF nF HV HAF _ _ _ _ _ _ Hv1 Hv2 Hvm).
    - intros e IH m IHm (H1 & Hm). destruct (IH H1) as (v1 & E1 & Hv1). destruct (IHm Hm) as (vm & Em & Hvm).
      rewrite E1, Em. cbn [bind]. apply (fmasked_ok A d sF nF HV HAF _ _ _ _ Hv1 Hvm).
    - intros m IHm Hm. destruct (IHm Hm) as (vm & Em & Hvm). rewrite Em. cbn [bind]. apply (funmask_ok A d sF nF HAF _ _ Hvm).
    - intros i IH Hi. destruct (IH Hi) as (v & Ev & Hv). rewrite Ev. cbn [bind]. apply (fcast_ok A d T HV HT HnF HnI v _ Hv).
    - intros i IH (Hd & Hi). destruct (IH Hi) as (v & Ev & Hv). rewrite Ev. cbn [bind]. apply (fofint_ok A d T HV HT HnF HnI v _ Hd Hv).
    - intros o e1 IH1 e2 IH2 (H1 & H2). destruct (IH1 H1) as (v1 & E1 & Hv1). destruct (IH2 H2) as (v2 & E2 & Hv2).
      rewrite E1, E2. cbn [bind]. apply (gcmp_ok est A d sF nF HV HAF o _ _ _ _ Hv1 Hv2).
    - intros e IH H1. destruct (IH H1) as (v & Ev & Hv). rewrite Ev. cbn [bind]. apply (fm1 A d sF nF (isnan_f A d sF) (f_nan w) v _ (isnan_spec A d sF HV HAF) Hv).
    - intros e IH H1. destruct (IH H1) as (v & Ev & Hv). rewrite Ev. cbn [bind]. apply (fm1 A d sF nF (isfinite_f A d sF) (f_finite w) v _ (isfinite_spec A d sF HV HAF) Hv).
    - intros o m1 IH1 m2 IH2 (H1 & H2). destruct (IH1 H1) as (v1 & E1 & Hv1). destruct (IH2 H2) as (v2 & E2 & Hv2).
      rewrite E1, E2. cbn [bind]. apply (frun_k_ok A d sF nF HV HAF o _ _ _ _ Hv1 Hv2).
    - intros m IH Hm. destruct (IH Hm) as (v & Ev & Hv). rewrite Ev. cbn [bind]. apply (fnot_ok A d sF nF HV HAF _ _ Hv).
    - intros k _. exists (ie k). split; [reflexivity|apply Hie].
    - intros c _. apply (const_ok A E sI nI HV HAI c).
    - intros o e IH [Ho He]. destruct (IH He) as (v & Ev & Hv). rewrite Ev. cbn [bind]. apply (run_u_ok A E sI nI HV HAI o v _ Ho Hv).
    - intros o e1 IH1 e2 IH2 (Ho & H1 & H2). destruct (IH1 H1) as (v1 & E1 & Hv1). destruct (IH2 H2) as (v2 & E2 & Hv2).
      rewrite E1, E2. cbn [bind]. apply (run_b_ok A E sI nI HV HAI o _ _ _ _ Ho Hv1 Hv2).
    - intros e1 IH1 e2 IH2 m IHm (H1 & H2 & Hm). destruct (IH1 H1) as (v1 & E1 & W1 & L1 & Ev1). destruct (IH2 H2) as (v2 & E2 & W2 & L2 & Ev2).
      destruct (IHm Hm) as (vm & Em & Lm & Hvm). rewrite E1, E2, Em. cbn [bind].
      destruct (T_Blend.blend_mask_spec A E sI HV HAI v1 v2 vm _ W1 W2 Hvm ltac:(lia) ltac:(lia)) as (r & Er & Wr & Lr & Evr).
      exists r. split; auto. split; auto. split; [lia|]. rewrite Evr, Ev1, Ev2, zipw3_map. reflexivity.
    - intros e IH H1. destruct (IH H1) as (v & Ev & Hv). rewrite Ev. cbn [bind]. apply (icast_ok A d T HV HT HnF HnI v _ Hv).
    - intros o e1 IH1 e2 IH2 (Ho & H1 & H2). destruct (IH1 H1) as (v1 & E1 & Hv1). destruct (IH2 H2) as (v2 & E2 & Hv2).
      rewrite E1, E2. cbn [bind]. apply (run_c_ok A E sI nI HV HAI o _ _ _ _ Ho Hv1 Hv2).
    - intros o m1 IH1 m2 IH2 (H1 & H2). destruct (IH1 H1) as (v1 & E1 & Hv1). destruct (IH2 H2) as (v2 & E2 & Hv2).
      rewrite E1, E2. cbn [bind]. apply (run_k_ok A E sI nI HV HAI o _ _ _ _ Hv1 Hv2).
    - intros m IH Hm. destruct (IH Hm) as (v & Ev & Lv & Hv). rewrite Ev. cbn [bind].
      destruct (bit_not_m_spec A E sI HV HAI v _ Hv) as (r & Er & Lr & Hr). exists r. split; auto. split; [lia|].
      rewrite map_map in Hr. exact Hr.
  Qed.
End R.

Lemma gprogram_ok : forall est A d T e fe ie, valid_arch A = true -> vsize T -> gf_fine d e ->
  (forall k, ftyped A T (fe k)) -> (forall k, typed A (fw d) T (ie k)) ->
  exists vr, frun est A d T e fe ie = Ok vr /\ ftyped A T vr /\
    ftlanes A d T vr = map (fun i => gf_value (the_unit est A d) (fw d) e (fun k => nth i (ftlanes A d T (fe k)) 0) (fun k => nth i (tlanes A (fw d) T (ie k)) 0))
      (seq 0 (Z.to_nat (T / fw d))).
Proof.
  intros est A d T e fe ie HV HT HF Hfe Hie.
  set (w := fw d). set (sF := vregf A T) in *. set (sI := vreg A w T) in *.
  assert (GF : forall v, ftyped A T v -> length v = Z.to_nat (T / rbits sF)).
  { intros v [_ L]. fold sF in L. rewrite <- L, Z.div_mul by apply rbits_nz. lia. }
  assert (GI : forall v, typed A w T v -> length v = Z.to_nat (T / rbits sI)).
  { intros v [_ L]. fold sI in L. rewrite <- L, Z.div_mul by apply rbits_nz. lia. }
  assert (HnF : Z.of_nat (Z.to_nat (T / rbits sF)) * rbits sF = T) by (rewrite <- (GF _ (Hfe 0%nat)); apply (Hfe 0%nat)).
  assert (HnI : Z.of_nat (Z.to_nat (T / rbits sI)) * rbits sI = T) by (rewrite <- (GI _ (Hie 0%nat)); apply (Hie 0%nat)).
  assert (LF : forall v, ftyped A T v -> isv (few d) sF (Z.to_nat (T / rbits sF)) v (fun i => nth i (ftlanes A d T v) 0)).
  { intros v Hv. split; [apply Hv|]. split; [apply GF; exact Hv|]. unfold ftlanes. fold sF. change (wb (few d)) with w. fold w.
    rewrite <- (GF v Hv).
    assert ((length v * nl w (rbits sF))%nat = length (lanes w sF v)) as -> by (rewrite lanes_length; lia). apply list_as_map. }
  assert (LI : forall v, typed A w T v -> isv (few d) sI (Z.to_nat (T / rbits sI)) v (fun i => nth i (tlanes A w T v) 0)).
  { intros v Hv. split; [apply Hv|]. split; [apply GI; exact Hv|]. unfold tlanes. fold sI. change (wb (few d)) with w.
    rewrite <- (GI v Hv).
    assert ((length v * nl w (rbits sI))%nat = length (lanes w sI v)) as -> by (rewrite lanes_length; lia). apply list_as_map. }
  destruct (proj1 (gvars_ok est A d T HV HT HnF HnI fe ie _ _ (fun k => LF _ (Hfe k)) (fun k => LI _ (Hie k))) e HF) as (r & Er & Wr & Lr & Evr).
  exists r. split; [exact Er|]. split; [split; [exact Wr|]; fold sF; rewrite Lr; exact HnF|].
  unfold ftlanes at 1. fold sF. change (wb (few d)) with w in Evr. fold w. change (lanes w sF r = map (fun i => gf_value (the_unit est A d) w e (fun k => nth i (ftlanes A d T (fe k)) 0) (fun k => nth i (tlanes A w T (ie k)) 0)) (seq 0 (Z.to_nat (T / rbits sF) * nl w (rbits sF)))) in Evr. rewrite Evr. f_equal. f_equal.
  apply lane_count; [apply fwok|exact HnF].
Qed.


Lemma gf_value_ext L w f f' g g' : (forall k, f k = f' k) -> (forall k, g k = g' k) -> forall e, gf_value L w e f g = gf_value L w e f' g'.
Proof.
  intros Hf Hg. apply (fexp_mut (fun e => gf_value L w e f g = gf_value L w e f' g') (fun m => gm_value L w m f g = gm_value L w m f' g')
    (fun e => gi_value L w e f g = gi_value L w e f' g') (fun m => gim_value L w m f g = gim_value L w m f' g'));
    intros; cbn [gf_value gm_value gi_value gim_value]; auto; repeat match goal with H : _ = _ |- _ => rewrite H; clear H end; auto.
Qed.
(** Every configuration has one set of lane functions, of the documented meaning, through which
    every program computes every lane of vectors of every length. *)
Theorem float_program_any : forall est A d, valid_arch A = true -> exists L, is_unit est A d L /\
  forall T e fe ie, vsize T -> gf_fine d e -> (forall k, ftyped A T (fe k)) -> (forall k, typed A (fw d) T (ie k)) ->
  exists vr, frun est A d T e fe ie = Ok vr /\ ftyped A T vr /\
    ftlanes A d T vr = map (fun i => gf_value L (fw d) e (fun k => nth i (ftlanes A d T (fe k)) 0) (fun k => nth i (tlanes A (fw d) T (ie k)) 0))
      (seq 0 (Z.to_nat (T / fw d))).
Proof.
  intros est A d HV. exists (the_unit est A d). split; [apply the_unit_is; auto|]. intros. apply gprogram_ok; auto.
Qed.
(** C37: cutting a vector of 2T bits in two *)
Theorem float_programs_split_any : forall est A d T e fe ie fe1 ie1 fe2 ie2, valid_arch A = true -> vsize T -> gf_fine d e ->
  (forall k, ftyped A (2 * T) (fe k)) -> (forall k, typed A (fw d) (2 * T) (ie k)) ->
  (forall k, ftyped A T (fe1 k)) -> (forall k, typed A (fw d) T (ie1 k)) -> (forall k, ftyped A T (fe2 k)) -> (forall k, typed A (fw d) T (ie2 k)) ->
  (forall k, ftlanes A d (2 * T) (fe k) = ftlanes A d T (fe1 k) ++ ftlanes A d T (fe2 k)) ->
  (forall k, tlanes A (fw d) (2 * T) (ie k) = tlanes A (fw d) T (ie1 k) ++ tlanes A (fw d) T (ie2 k)) ->
  exists vr v1 v2, frun est A d (2 * T) e fe ie = Ok vr /\ frun est A d T e fe1 ie1 = Ok v1 /\ frun est A d T e fe2 ie2 = Ok v2 /\
    ftlanes A d (2 * T) vr = ftlanes A d T v1 ++ ftlanes A d T v2.
Proof.
  intros est A d T e fe ie fe1 ie1 fe2 ie2 HV HT HF H1 H2 H3 H4 H5 H6 EF EI.
  assert (vsize (2 * T)) as HT2 by (destruct HT as [k ->]; exists (S k); rewrite Nat2Z.inj_succ, Z.pow_succ_r by lia; ring).
  destruct (gprogram_ok est A d (2 * T) e fe ie HV HT2 HF H1 H2) as (vr & E & _ & L).
  destruct (gprogram_ok est A d T e fe1 ie1 HV HT HF H3 H4) as (v1 & E1 & _ & L1).
  destruct (gprogram_ok est A d T e fe2 ie2 HV HT HF H5 H6) as (v2 & E2 & _ & L2).
  exists vr, v1, v2. split; auto. split; auto. split; auto. rewrite L, L1, L2.
  assert (Z.to_nat (2 * T / fw d) = Z.to_nat (T / fw d) + Z.to_nat (T / fw d))%nat as ->.
  { destruct HT as [k ->]. rewrite <- Z2Nat.inj_add by (apply Z.div_pos; [pose proof (Z.pow_nonneg 2 (Z.of_nat k) ltac:(lia)); lia|destruct d; reflexivity]). f_equal.
    assert (128 = fw d * (128 / fw d) /\ 0 < fw d) as [E128 Hp] by (destruct d; split; reflexivity). set (q := 128 / fw d) in *. clearbody q. rewrite E128.
    replace (2 * (fw d * q * 2 ^ Z.of_nat k)) with (2 * q * 2 ^ Z.of_nat k * fw d) by ring.
    replace (fw d * q * 2 ^ Z.of_nat k) with (q * 2 ^ Z.of_nat k * fw d) by ring. rewrite !Z.div_mul by lia. ring. }
  assert (NF : forall v, ftyped A T v -> length (ftlanes A d T v) = Z.to_nat (T / fw d)).
  { intros v [_ Lv]. unfold ftlanes. rewrite lanes_length, Nat.mul_comm. apply lane_count; [apply fwok|exact Lv]. }
  assert (NI : forall v, typed A (fw d) T v -> length (tlanes A (fw d) T v) = Z.to_nat (T / fw d)).
  { intros v [_ Lv]. unfold tlanes. rewrite lanes_length, Nat.mul_comm. apply lane_count; [apply fwok|exact Lv]. }
  set (n := Z.to_nat (T / fw d)) in *. rewrite seq_app, map_app. f_equal.
  - apply map_ext_in. intros i Hi. apply in_seq in Hi. apply gf_value_ext; intros k; [rewrite EF|rewrite EI]; rewrite app_nth1; auto;
      [rewrite (NF _ (H3 k))|rewrite (NI _ (H4 k))]; lia.
  - rewrite Nat.add_0_l. rewrite <- (Nat.add_0_r n) at 1. 
    assert (SH : seq (n + 0) n = map (fun i => (n + i)%nat) (seq 0 n)).
    { clear. generalize 0%nat at 1 2. intros a. generalize n at 2 4. intros m. revert a. induction m as [|m IH]; intros a; [reflexivity|]. cbn [seq map]. f_equal. rewrite <- Nat.add_succ_r. apply IH. }
    rewrite SH, map_map. apply map_ext. intros i. apply gf_value_ext; intros k; [rewrite EF|rewrite EI]; rewrite app_nth2;
      rewrite ?(NF _ (H3 k)), ?(NI _ (H4 k)); try lia; f_equal; lia.
Qed.


(** IEEE units: the functions of Spec/FProgram.v, but for the choice of zeros and NaNs in min and max *)
Theorem ieee_unit_ops : forall est A d L, is_unit est A d L -> ieee_unit A d = true ->
  (forall o x y, fb_fine o -> l_bin L o x y = fb_val (fw d) o x y) /\ (forall o x y, l_cmp L o x y = fc_val (fw d) o x y) /\
  (forall o x, fu_fine A d o -> l_un L o x = fu_val (fw d) o x) /\
  (forall x y, chooses_min (fw d) x y (l_bin L FMin x y)) /\ (forall x y, chooses_max (fw d) x y (l_bin L FMax x y)).
Proof.
  intros est A d L [Ub Us Ua Uu Um Ud Un Ux Ul Uc Un2] HI.
  assert (HD : forall x, denorm0 A d x = x) by (intros; unfold denorm0; rewrite HI; reflexivity).
  assert (HM : no_mul A d = false) by (revert HI; unfold ieee_unit, no_mul; destruct d, (use_altivec A), (use_vsx206 A), (use_neon_flt_sp A), (use_64 A); cbn; intros; first [reflexivity|discriminate]).
  split; [|split; [|split; [|split]]].
  - intros o x y Ho. destruct o; try contradiction; rewrite ?Ua, ?Uu, ?Um, ?Ud, ?fbits_fw, ?HD; try reflexivity.
    + unfold unit_mul. rewrite HM, !HD, fbits_fw. reflexivity.
    + unfold unit_div. rewrite HI, fbits_fw. reflexivity.
    + rewrite Ul, fbits_fw by (cbn; auto 6). reflexivity.
    + rewrite Ul, fbits_fw by (cbn; auto 6). reflexivity.
    + rewrite Ul, fbits_fw by (cbn; auto 6). reflexivity.
    + rewrite Ul, fbits_fw by (cbn; auto 6). reflexivity.
    + rewrite Ul, fbits_fw by (cbn; auto 7). reflexivity.
  - intros o x y. destruct o; try (rewrite Uc by discriminate; rewrite !HD, fbits_fw; reflexivity). rewrite Un2, fbits_fw. reflexivity.
  - intros o x Ho. destruct o; try (rewrite Ub by discriminate; rewrite fbits_fw; reflexivity).
    rewrite Us. unfold unit_sqrt. cbn [fu_fine] in Ho. rewrite Ho, fbits_fw. reflexivity.
  - intros x y. specialize (Un x y). rewrite !HD, fbits_fw in Un. exact Un.
  - intros x y. specialize (Ux x y). rewrite !HD, fbits_fw in Ux. exact Ux.
Qed.

(** min(x + y, x / y) on 32-bit NEON: denormals vanish; 6/2 through estimates *)
Definition arch_neon_sp := mkArch false false false false false false false false
  false false false false false false false true true false false false false false false false true.
Definition any_case : fexp := FBin FMin (FBin FAdd (FVar 0) (FVar 1)) (FBin FDiv (FVar 0) (FVar 1)).
Example float_program_any_case :
  valid_arch arch_neon_sp = true /\
  ieee_unit arch_neon_sp false = false /\ gf_fine false any_case /\ ~ f_fine arch_neon_sp false any_case /\
  (let x := pack 32 128 (fun i => nth (Z.to_nat i) [0x40c00000; 1; 0x80000001; 0x3f800000] 0) in
   let y := pack 32 128 (fun i => nth (Z.to_nat i) [0x40000000; 0x3f800000; 0x3f800000; 0x40800000] 0) in
   let est e := 0x7f000000 - e in
   (let* r := frun est arch_neon_sp false 128 any_case (fun k => match k with O => [x] | _ => [y] end) (fun _ => [0]) in Ok (ftlanes arch_neon_sp false 128 r)) =
   Ok [0x40400000; 0; 0x80000000; 0x3e800000]).
Proof.
  split; [reflexivity|]. split; [reflexivity|]. split; [repeat split|]. split; [intros (F & _); exact F|]. vm_compute. reflexivity.
Qed.
