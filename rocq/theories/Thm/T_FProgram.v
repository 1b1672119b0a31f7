(** C37, C38 for programs that mix float and integer vectors: they compute the same lanes on
    every instruction set with IEEE float units, however a long vector is cut. *)
From Verif Require Import Spec.Masks Spec.FProgram Model.FProgram Proof.ConvertP Proof.FloatsP Proof.FArithP Proof.FConvP2 Proof.Log2P
  Thm.T_Blend Thm.T_Bitwise Thm.T_Floats Thm.T_FArith Thm.T_FConv Thm.T_Cast Thm.T_Program.
From Coq Require Import Lia.

Scheme fexp_mut := Induction for fexp Sort Prop with fmexp_mut := Induction for fmexp Sort Prop
  with iexp_mut := Induction for iexp Sort Prop with imexp_mut := Induction for imexp Sort Prop.
Combined Scheme fprog_mut from fexp_mut, fmexp_mut, iexp_mut, imexp_mut.

Lemma i_make_double_ok A s c : valid_arch A = true -> avail_flt A s = true -> i_make_double A s c = Ok (splat 64 (rbits s) c).
Proof.
  intros HV HA. unfold i_make_double. destruct s; cbn [avail_flt rbits] in *; rewrite ?HA; try reflexivity.
  fam HV; unfold use_neon64; rw_flags; cbn [orb andb negb]; repeat split_if; reflexivity.
Qed.
Lemma ieee_ftz A d : ieee_unit A d = negb (ftz A d).
Proof. unfold ieee_unit, ftz. destruct d, (use_neon_flt_sp A), (use_64 A), (use_altivec A), (use_vsx206 A); reflexivity. Qed.
Lemma ieee_rsqrt A d : ieee_sqrt A d = negb (by_rsqrt A d).
Proof. unfold ieee_sqrt, by_rsqrt. destruct d, (use_neon_flt_sp A), (use_64 A), (use_altivec A); reflexivity. Qed.

Section F.
  Variables (A : arch) (d : bool) (s : rsz) (n : nat).
  Hypotheses (HV : valid_arch A = true) (HA : avail_flt A s = true) (HZ : ftz A d = false).
  Notation w := (fw d).
  Notation E := (few d).
  Let N := (n * nl w (rbits s))%nat.
  Definition ismf (v : vec) (f : nat -> bool) : Prop := length v = n /\ masks_k (mk_flt A d s) w s v (map f (seq 0 N)).

  Lemma fm2 op g v1 v2 f1 f2 : computesM2_k (mk_flt A d s) E s op g -> isv E s n v1 f1 -> isv E s n v2 f2 ->
    exists r, op v1 v2 = Ok r /\ ismf r (fun i => g (f1 i) (f2 i)).
  Proof.
    intros HC (Wv & Lv & Ev) (Wu & Lu & Eu). destruct (HC v1 v2 Wv Wu ltac:(lia)) as (r & Er & Lr & Mr). exists r. split; auto.
    split; [lia|]. rewrite Ev, Eu, zipw_map in Mr. exact Mr.
  Qed.
  Lemma fm1 op g v f : computesM1_k (mk_flt A d s) E s op g -> isv E s n v f ->
    exists r, op v = Ok r /\ ismf r (fun i => g (f i)).
  Proof.
    intros HC (Wv & Lv & Ev). destruct (HC v Wv) as (r & Er & Lr & Mr). exists r. split; auto.
    split; [lia|]. rewrite Ev, map_map in Mr. exact Mr.
  Qed.
  Lemma fmm2 op g v1 v2 f1 f2 : computesMM2_k (mk_flt A d s) E s op g -> ismf v1 f1 -> ismf v2 f2 ->
    exists r, op v1 v2 = Ok r /\ ismf r (fun i => g (f1 i) (f2 i)).
  Proof.
    intros HC (Lv & Mv) (Lu & Mu). destruct (HC v1 v2 _ _ Mv Mu ltac:(lia)) as (r & Er & Lr & Mr). exists r. split; auto.
    split; [lia|]. rewrite zipw_map in Mr. exact Mr.
  Qed.
  Lemma frun_u_ok est o v f : fu_fine A d o -> isv E s n v f ->
    exists r, frun_u est A d s o v = Ok r /\ isv E s n r (fun i => fu_val w o (f i)).
  Proof.
    intros HF Hv. refine (c1 E s n (frun_u est A d s o) (fu_val w o) v f _ Hv). destruct o; unfold frun_u, fu_val; cbn [fu_fine] in *.
    - apply neg_float_spec; auto.
    - apply abs_float_spec; auto.
    - apply sign_float_spec; auto.
    - apply bit_not_float_spec; auto.
    - apply sqrt_float_partial; auto. rewrite ieee_rsqrt in HF. apply negb_true_iff in HF. exact HF.
  Qed.
  Lemma frun_b_ok est o v1 v2 f1 f2 : fb_fine o -> isv E s n v1 f1 -> isv E s n v2 f2 ->
    exists r, frun_b est A d s o v1 v2 = Ok r /\ isv E s n r (fun i => fb_val w o (f1 i) (f2 i)).
  Proof.
    intros Hf Hv Hu. refine (c2 E s n (frun_b est A d s o) (fb_val w o) v1 v2 f1 f2 _ Hv Hu). destruct o; unfold frun_b, fb_val; try contradiction.
    - apply add_float_partial; auto.
    - apply sub_float_partial; auto.
    - apply mul_float_partial; auto.
    - apply div_float_partial; auto.
    - apply bit_and_float_spec; auto.
    - apply bit_or_float_spec; auto.
    - apply bit_xor_float_spec; auto.
    - apply bit_andnot_float_spec; auto.
    - apply copysign_spec; auto.
  Qed.
  Lemma frun_c_ok o v1 v2 f1 f2 : isv E s n v1 f1 -> isv E s n v2 f2 ->
    exists r, frun_c A d s o v1 v2 = Ok r /\ ismf r (fun i => fc_val w o (f1 i) (f2 i)).
  Proof.
    intros Hv Hu. refine (fm2 (frun_c A d s o) (fc_val w o) v1 v2 f1 f2 _ Hv Hu). destruct o; unfold frun_c, fc_val.
    - apply cmp_eq_float_partial; auto.
    - apply cmp_neq_float_partial; auto.
    - apply cmp_lt_float_partial; auto.
    - apply cmp_le_float_partial; auto.
    - apply cmp_gt_float_partial; auto.
    - apply cmp_ge_float_partial; auto.
    - apply isnan2_spec; auto.
  Qed.
  Lemma frun_k_ok o v1 v2 f1 f2 : ismf v1 f1 -> ismf v2 f2 ->
    exists r, frun_k A d s o v1 v2 = Ok r /\ ismf r (fun i => k_val o (f1 i) (f2 i)).
  Proof.
    intros Hv Hu. refine (fmm2 (frun_k A d s o) (k_val o) v1 v2 f1 f2 _ Hv Hu). destruct o; unfold frun_k, k_val.
    - apply bit_and_float_mm_spec; auto.
    - apply bit_or_float_mm_spec; auto.
    - apply bit_xor_float_mm_spec; auto.
    - apply bit_andnot_float_mm_spec; auto.
  Qed.
  Lemma fconst_ok c : exists r, (if d then make_double else make_float) A s c n = Ok r /\ isv E s n r (fun _ => c mod 2 ^ w).
  Proof.
    clear HZ.
    assert (G : forall k, exists r, (if d then make_double else make_float) A s c k = Ok r /\ isv E s k r (fun _ => c mod 2 ^ w)).
    { assert (wok w (rbits s) = true) as Hw by apply fwok.
      induction k as [|k (r & Er & W & L & EL)]; [exists []; destruct d; repeat split; constructor|].
      exists (splat w (rbits s) c :: r). split.
      - destruct d; cbn [make_double make_float] in *; [rewrite i_make_double_ok by auto|rewrite i_make_float_ok by auto]; cbn [bind]; rewrite Er; reflexivity.
      - split; [apply wfv_cons; split; [apply splat_reg; exact Hw|exact W]|]. split; [cbn [length]; lia|].
        change (wb E) with w in *. rewrite lanes_cons, EL. cbn [Nat.mul]. rewrite seq_app, map_app. f_equal.
        + unfold elems. apply map_ext_in. intros i Hi. apply in_seq in Hi. rewrite lane_splat_g; [reflexivity|exact Hw|].
          pose proof (nl_div w (rbits s) Hw). lia.
        + rewrite (map_const _ (c mod 2 ^ w)) by reflexivity. rewrite (map_const _ (c mod 2 ^ w)) by reflexivity. rewrite !seq_length. reflexivity. }
    apply G.
  Qed.
  Lemma fblend_ok va vb vm f g b : isv E s n va f -> isv E s n vb g -> ismf vm b ->
    exists r, blend_f_m A d s va vb vm = Ok r /\ isv E s n r (fun i => if b i then f i else g i).
  Proof.
    intros (W1 & L1 & E1) (W2 & L2 & E2) (Lm & Mm).
    destruct (blend_float_mask_spec A d s HV HA va vb vm _ W1 W2 Mm ltac:(lia) ltac:(lia)) as (r & Er & Wr & Lr & Evr).
    exists r. split; auto. split; auto. split; [lia|]. rewrite Evr, E1, E2, zipw3_map. reflexivity.
  Qed.
  Lemma fmasked_ok va vm f b : isv E s n va f -> ismf vm b ->
    exists r, bit_and_f_vm A d s va vm = Ok r /\ isv E s n r (fun i => if b i then f i else 0).
  Proof.
    intros (W1 & L1 & E1) (Lm & Mm).
    destruct (bit_and_float_vm_spec A d s HV HA va vm _ W1 Mm ltac:(lia)) as (r & Er & Wr & Lr & Evr).
    exists r. split; auto. split; auto. split; [lia|]. rewrite Evr, E1, zipw_map. reflexivity.
  Qed.
  Lemma funmask_ok vm b : ismf vm b ->
    exists r, unmask_f_v A d s vm = Ok r /\ isv E s n r (fun i => if b i then 2 ^ w - 1 else 0).
  Proof.
    intros (Lm & Mm). destruct (unmask_float_spec A d s HA vm _ Mm) as (r & Er & Wr & Lr & Evr).
    exists r. split; auto. split; auto. split; [lia|]. rewrite Evr, map_map. reflexivity.
  Qed.
  Lemma fnot_ok vm b : ismf vm b -> exists r, bit_not_f_m A d s vm = Ok r /\ ismf r (fun i => negb (b i)).
  Proof.
    intros (Lm & Mm). destruct (bit_not_float_m_spec A d s HV HA vm _ Mm) as (r & Er & Lr & Mr).
    exists r. split; auto. split; [lia|]. rewrite map_map in Mr. exact Mr.
  Qed.
End F.

(** a vector of T bits of float32 (d = false) or float64 (d = true), and its lanes *)
Definition ftyped (A : arch) (T : Z) (v : vec) : Prop := wfv (vregf A T) v /\ Z.of_nat (length v) * rbits (vregf A T) = T.
Definition ftlanes (A : arch) (d : bool) (T : Z) (v : vec) : list Z := lanes (fw d) (vregf A T) v.

Lemma lane_count w s k T : wok w (rbits s) = true -> Z.of_nat k * rbits s = T -> (k * nl w (rbits s))%nat = Z.to_nat (T / w).
Proof.
  intros Hw HT. destruct (wok_spec _ _ Hw) as (Hp & _ & HE & HN).
  assert (T = Z.of_nat k * Z.of_nat (nl w (rbits s)) * w) as -> by (rewrite <- HT; nia). rewrite Z.div_mul by lia. lia.
Qed.

Lemma rbits_nz s : rbits s <> 0. Proof. destruct s; discriminate. Qed.
Section R.
  Variables (est : Z -> Z) (A : arch) (d : bool) (T : Z).
  Hypotheses (HV : valid_arch A = true) (HT : vsize T) (HI : ieee_unit A d = true).
  Notation w := (fw d).
  Notation E := (few d).
  Notation sF := (vregf A T).
  Notation sI := (vreg A w T).
  Notation nF := (Z.to_nat (T / rbits sF)).
  Notation nI := (vlen A w T).
  Let HZ : ftz A d = false. Proof. rewrite ieee_ftz in HI. apply negb_true_iff. exact HI. Qed.
  Let HAF : avail_flt A sF = true := proj1 (fi_regs A T HV HT).
  Let HAI : avail_int A (wb E) sI = true. Proof. apply vreg_avail; auto. Qed.
  Hypotheses (HnF : Z.of_nat nF * rbits sF = T) (HnI : Z.of_nat nI * rbits sI = T).
  Let HN : (nF * nl w (rbits sF) = nI * nl w (rbits sI))%nat.
  Proof. rewrite (lane_count w sF nF T), (lane_count w sI nI T); auto. Qed.

  Lemma fcast_ok v f : isv E sI nI v f -> exists r, bit_cast A (TInt E) TFlt T v = Ok r /\ isv E sF nF r f.
  Proof.
    clear HZ HI.
    intros (W & L & EL). destruct (bit_cast_spec A (TInt E) TFlt T v HV HT) as (r & Er & Wr & Lr & Elr); [exact W|rewrite L; exact HnI|].
    exists r. split; auto. cbn [vty_reg] in *. split; auto. split; [|rewrite Elr by (destruct d; auto); change (wb E) with w in *; rewrite EL, HN; reflexivity].
    apply Nat2Z.inj. apply (Z.mul_reg_r _ _ (rbits sF)); [apply rbits_nz|]. rewrite Lr, HnF. reflexivity.
  Qed.
  Lemma icast_ok v f : isv E sF nF v f -> exists r, bit_cast A TFlt (TInt E) T v = Ok r /\ isv E sI nI r f.
  Proof.
    clear HZ HI.
    intros (W & L & EL). destruct (bit_cast_spec A TFlt (TInt E) T v HV HT) as (r & Er & Wr & Lr & Elr); [exact W|rewrite L; exact HnF|].
    exists r. split; auto. cbn [vty_reg] in *. split; auto. split; [|rewrite Elr by (destruct d; auto); change (wb E) with w in *; rewrite EL, <- HN; reflexivity].
    apply Nat2Z.inj. apply (Z.mul_reg_r _ _ (rbits sI)); [apply rbits_nz|]. change (wb E) with w in *. rewrite Lr, HnI. reflexivity.
  Qed.
  Lemma fofint_ok v f : d = false -> isv E sI nI v f ->
    exists r, (if d then NotImpl else to_float32_i A T v) = Ok r /\ isv E sF nF r (fun i => f_of_int w (sgn w (f i))).
  Proof.
    intros Hd (W & L & EL). assert (H : holds (vreg A 32 T) T (lanes 32 (vreg A 32 T) v) v).
    { pose proof HnI as X. rewrite Hd in W, L, X. repeat split; auto. rewrite L. exact X. }
    destruct (hof_int A T HV HT _ _ H) as (r & Er & Wr & Lr & Evr). exists r. split; [rewrite Hd; exact Er|]. split; auto. split.
    - apply Nat2Z.inj. apply (Z.mul_reg_r _ _ (rbits sF)); [apply rbits_nz|]. rewrite Lr, HnF. reflexivity.
    - change (wb E) with w in *. rewrite HN. pose proof EL as X. rewrite Hd in X |- *. change (fw false) with 32 in *.
      rewrite Evr, X, map_map. reflexivity.
  Qed.

  Variables (fe ie : nat -> vec) (fval ival : nat -> nat -> Z).
  Hypotheses (Hfe : forall k, isv E sF nF (fe k) (fval k)) (Hie : forall k, isv E sI nI (ie k) (ival k)).
  Lemma fvars_ok :
    (forall e, f_fine A d e -> exists r, frun est A d T e fe ie = Ok r /\ isv E sF nF r (fun i => f_value w e (fun k => fval k i) (fun k => ival k i))) /\
    (forall m, fm_fine A d m -> exists r, frun_m est A d T m fe ie = Ok r /\ ismf A d sF nF r (fun i => fm_value w m (fun k => fval k i) (fun k => ival k i))) /\
    (forall e, i_fine A d e -> exists r, irun est A d T e fe ie = Ok r /\ isv E sI nI r (fun i => i_value w e (fun k => fval k i) (fun k => ival k i))) /\
    (forall m, im_fine A d m -> exists r, irun_m est A d T m fe ie = Ok r /\ ism A E sI nI r (fun i => im_value w m (fun k => fval k i) (fun k => ival k i))).
  Proof.
    apply fprog_mut; cbn [f_fine fm_fine i_fine im_fine frun frun_m irun irun_m f_value fm_value i_value im_value]; change (few' d) with E.
    - intros k _. exists (fe k). split; [reflexivity|apply Hfe].
    - intros c _. apply fconst_ok; auto.
    - intros o e IH [Ho He]. destruct (IH He) as (v & Ev & Hv). rewrite Ev. cbn [bind]. apply (frun_u_ok A d sF nF HV HAF est o v _ Ho Hv).
    - intros o e1 IH1 e2 IH2 (Ho & H1 & H2). destruct (IH1 H1) as (v1 & E1 & Hv1). destruct (IH2 H2) as (v2 & E2 & Hv2).
      rewrite E1, E2. cbn [bind]. apply (frun_b_ok A d sF nF HV HAF HZ est o _ _ _ _ Ho Hv1 Hv2).
    - intros e1 IH1 e2 IH2 m IHm (H1 & H2 & Hm). destruct (IH1 H1) as (v1 & E1 & Hv1). destruct (IH2 H2) as (v2 & E2 & Hv2). destruct (IHm Hm) as (vm & Em & Hvm).
      rewrite E1, E2, Em. cbn [bind]. apply (fblend_ok A d sF nF HV HAF _ _ _ _ _ _ Hv1 Hv2 Hvm).
    - intros e IH m IHm (H1 & Hm). destruct (IH H1) as (v1 & E1 & Hv1). destruct (IHm Hm) as (vm & Em & Hvm).
      rewrite E1, Em. cbn [bind]. apply (fmasked_ok A d sF nF HV HAF _ _ _ _ Hv1 Hvm).
    - intros m IHm Hm. destruct (IHm Hm) as (vm & Em & Hvm). rewrite Em. cbn [bind]. apply (funmask_ok A d sF nF HAF _ _ Hvm).
    - intros i IH Hi. destruct (IH Hi) as (v & Ev & Hv). rewrite Ev. cbn [bind]. apply fcast_ok. exact Hv.
    - intros i IH (Hd & Hi). destruct (IH Hi) as (v & Ev & Hv). rewrite Ev. cbn [bind]. apply (fofint_ok v _ Hd Hv).
    - intros o e1 IH1 e2 IH2 (H1 & H2). destruct (IH1 H1) as (v1 & E1 & Hv1). destruct (IH2 H2) as (v2 & E2 & Hv2).
      rewrite E1, E2. cbn [bind]. apply (frun_c_ok A d sF nF HV HAF HZ o _ _ _ _ Hv1 Hv2).
    - intros e IH H1. destruct (IH H1) as (v & Ev & Hv). rewrite Ev. cbn [bind]. apply (fm1 A d sF nF (isnan_f A d sF) (f_nan w) v _ (isnan_spec A d sF HV HAF) Hv).
    - intros e IH H1. destruct (IH H1) as (v & Ev & Hv). rewrite Ev. cbn [bind]. apply (fm1 A d sF nF (isfinite_f A d sF) (f_finite w) v _ (isfinite_spec A d sF HV HAF) Hv).
    - intros o m1 IH1 m2 IH2 (H1 & H2). destruct (IH1 H1) as (v1 & E1 & Hv1). destruct (IH2 H2) as (v2 & E2 & Hv2).
      rewrite E1, E2. cbn [bind]. apply (frun_k_ok A d sF nF HV HAF o _ _ _ _ Hv1 Hv2).
    - intros m IH Hm. destruct (IH Hm) as (v & Ev & Hv). rewrite Ev. cbn [bind]. apply (fnot_ok A d sF nF HV HAF _ _ Hv).
    - intros k _. exists (ie k). split; [reflexivity|apply Hie].
    - intros c _. apply (const_ok A E sI nI HV HAI c).
    - intros o e IH [Ho He]. destruct (IH He) as (v & Ev & Hv). rewrite Ev. cbn [bind]. apply (run_u_ok A E sI nI HV HAI o v _ Ho Hv).
    - intros o e1 IH1 e2 IH2 (Ho & H1 & H2). destruct (IH1 H1) as (v1 & E1 & Hv1). destruct (IH2 H2) as (v2 & E2 & Hv2).
      rewrite E1, E2. cbn [bind]. apply (run_b_ok A E sI nI HV HAI o _ _ _ _ Ho Hv1 Hv2).
    - intros e1 IH1 e2 IH2 m IHm (H1 & H2 & Hm). destruct (IH1 H1) as (v1 & E1 & W1 & L1 & Ev1). destruct (IH2 H2) as (v2 & E2 & W2 & L2 & Ev2).
      destruct (IHm Hm) as (vm & Em & Lm & Hvm). rewrite E1, E2, Em. cbn [bind].
      destruct (T_Blend.blend_mask_spec A E sI HV HAI v1 v2 vm _ W1 W2 Hvm ltac:(lia) ltac:(lia)) as (r & Er & Wr & Lr & Evr).
      exists r. split; auto. split; auto. split; [lia|]. rewrite Evr, Ev1, Ev2, zipw3_map. reflexivity.
    - intros e IH H1. destruct (IH H1) as (v & Ev & Hv). rewrite Ev. cbn [bind]. apply icast_ok. exact Hv.
    - intros o e1 IH1 e2 IH2 (Ho & H1 & H2). destruct (IH1 H1) as (v1 & E1 & Hv1). destruct (IH2 H2) as (v2 & E2 & Hv2).
      rewrite E1, E2. cbn [bind]. apply (run_c_ok A E sI nI HV HAI o _ _ _ _ Ho Hv1 Hv2).
    - intros o m1 IH1 m2 IH2 (H1 & H2). destruct (IH1 H1) as (v1 & E1 & Hv1). destruct (IH2 H2) as (v2 & E2 & Hv2).
      rewrite E1, E2. cbn [bind]. apply (run_k_ok A E sI nI HV HAI o _ _ _ _ Hv1 Hv2).
    - intros m IH Hm. destruct (IH Hm) as (v & Ev & Lv & Hv). rewrite Ev. cbn [bind].
      destruct (bit_not_m_spec A E sI HV HAI v _ Hv) as (r & Er & Lr & Hr). exists r. split; auto. split; [lia|].
      rewrite map_map in Hr. exact Hr.
  Qed.
End R.

(** Every program succeeds, and lane i of its result depends only on lane i of its inputs,
    through the operators' IEEE and integer meaning. *)
Theorem float_program_spec : forall est A d T e fe ie, valid_arch A = true -> vsize T -> ieee_unit A d = true -> f_fine A d e ->
  (forall k, ftyped A T (fe k)) -> (forall k, typed A (fw d) T (ie k)) ->
  exists vr, frun est A d T e fe ie = Ok vr /\ ftyped A T vr /\
    ftlanes A d T vr = map (fun i => f_value (fw d) e (fun k => nth i (ftlanes A d T (fe k)) 0) (fun k => nth i (tlanes A (fw d) T (ie k)) 0))
      (seq 0 (Z.to_nat (T / fw d))).
Proof.
  intros est A d T e fe ie HV HT HI HF Hfe Hie.
  set (w := fw d). set (sF := vregf A T) in *. set (sI := vreg A w T) in *.
  assert (GF : forall v, ftyped A T v -> length v = Z.to_nat (T / rbits sF)).
  { intros v [_ L]. fold sF in L. rewrite <- L, Z.div_mul by apply rbits_nz. lia. }
  assert (GI : forall v, typed A w T v -> length v = Z.to_nat (T / rbits sI)).
  { intros v [_ L]. fold sI in L. rewrite <- L, Z.div_mul by apply rbits_nz. lia. }
  assert (HnF : Z.of_nat (Z.to_nat (T / rbits sF)) * rbits sF = T) by (rewrite <- (GF _ (Hfe 0%nat)); apply (Hfe 0%nat)).
  assert (HnI : Z.of_nat (Z.to_nat (T / rbits sI)) * rbits sI = T) by (rewrite <- (GI _ (Hie 0%nat)); apply (Hie 0%nat)).
  assert (LF : forall v, ftyped A T v -> isv (few d) sF (Z.to_nat (T / rbits sF)) v (fun i => nth i (ftlanes A d T v) 0)).
  { intros v Hv. split; [apply Hv|]. split; [apply GF; exact Hv|]. unfold ftlanes. fold sF. change (wb (few d)) with w. fold w.
    rewrite <- (GF v Hv).
    assert ((length v * nl w (rbits sF))%nat = length (lanes w sF v)) as -> by (rewrite lanes_length; lia). apply list_as_map. }
  assert (LI : forall v, typed A w T v -> isv (few d) sI (Z.to_nat (T / rbits sI)) v (fun i => nth i (tlanes A w T v) 0)).
  { intros v Hv. split; [apply Hv|]. split; [apply GI; exact Hv|]. unfold tlanes. fold sI. change (wb (few d)) with w.
    rewrite <- (GI v Hv).
    assert ((length v * nl w (rbits sI))%nat = length (lanes w sI v)) as -> by (rewrite lanes_length; lia). apply list_as_map. }
  destruct (proj1 (fvars_ok est A d T HV HT HI HnF HnI fe ie _ _ (fun k => LF _ (Hfe k)) (fun k => LI _ (Hie k))) e HF) as (r & Er & Wr & Lr & Evr).
  exists r. split; [exact Er|]. split; [split; [exact Wr|]; fold sF; rewrite Lr; exact HnF|].
  unfold ftlanes at 1. fold sF. change (wb (few d)) with w in Evr. fold w. change (lanes w sF r = map (fun i => f_value w e (fun k => nth i (ftlanes A d T (fe k)) 0) (fun k => nth i (tlanes A w T (ie k)) 0)) (seq 0 (Z.to_nat (T / rbits sF) * nl w (rbits sF)))) in Evr. rewrite Evr. f_equal. f_equal.
  apply lane_count; [apply fwok|exact HnF].
Qed.

Lemma f_value_ext w f f' g g' : (forall k, f k = f' k) -> (forall k, g k = g' k) -> forall e, f_value w e f g = f_value w e f' g'.
Proof.
  intros Hf Hg. apply (fexp_mut (fun e => f_value w e f g = f_value w e f' g') (fun m => fm_value w m f g = fm_value w m f' g')
    (fun e => i_value w e f g = i_value w e f' g') (fun m => im_value w m f g = im_value w m f' g'));
    intros; cbn [f_value fm_value i_value im_value]; auto; repeat match goal with H : _ = _ |- _ => rewrite H; clear H end; auto.
Qed.
(** C38: two configurations with IEEE units, the same input lanes: the same output lanes. *)
Theorem float_programs_are_portable : forall est est' A A' d T e fe ie fe' ie', valid_arch A = true -> valid_arch A' = true -> vsize T ->
  ieee_unit A d = true -> ieee_unit A' d = true -> f_fine A d e -> f_fine A' d e ->
  (forall k, ftyped A T (fe k)) -> (forall k, typed A (fw d) T (ie k)) -> (forall k, ftyped A' T (fe' k)) -> (forall k, typed A' (fw d) T (ie' k)) ->
  (forall k, ftlanes A d T (fe k) = ftlanes A' d T (fe' k)) -> (forall k, tlanes A (fw d) T (ie k) = tlanes A' (fw d) T (ie' k)) ->
  exists vr vr', frun est A d T e fe ie = Ok vr /\ frun est' A' d T e fe' ie' = Ok vr' /\ ftlanes A d T vr = ftlanes A' d T vr'.
Proof.
  intros est est' A A' d T e fe ie fe' ie' HV HV' HT HI HI' HF HF' H1 H2 H3 H4 EF EI.
  destruct (float_program_spec est A d T e fe ie HV HT HI HF H1 H2) as (vr & E & _ & L).
  destruct (float_program_spec est' A' d T e fe' ie' HV' HT HI' HF' H3 H4) as (vr' & E' & _ & L').
  exists vr, vr'. split; auto. split; auto. rewrite L, L'. apply map_ext. intros i.
  apply f_value_ext; intros k; [rewrite EF|rewrite EI]; reflexivity.
Qed.
(** C37: a vector of 2T bits whose lanes are those of two vectors of T bits one after the other *)
Theorem float_programs_split : forall est A d T e fe ie fe1 ie1 fe2 ie2, valid_arch A = true -> vsize T -> ieee_unit A d = true -> f_fine A d e ->
  (forall k, ftyped A (2 * T) (fe k)) -> (forall k, typed A (fw d) (2 * T) (ie k)) ->
  (forall k, ftyped A T (fe1 k)) -> (forall k, typed A (fw d) T (ie1 k)) -> (forall k, ftyped A T (fe2 k)) -> (forall k, typed A (fw d) T (ie2 k)) ->
  (forall k, ftlanes A d (2 * T) (fe k) = ftlanes A d T (fe1 k) ++ ftlanes A d T (fe2 k)) ->
  (forall k, tlanes A (fw d) (2 * T) (ie k) = tlanes A (fw d) T (ie1 k) ++ tlanes A (fw d) T (ie2 k)) ->
  exists vr v1 v2, frun est A d (2 * T) e fe ie = Ok vr /\ frun est A d T e fe1 ie1 = Ok v1 /\ frun est A d T e fe2 ie2 = Ok v2 /\
    ftlanes A d (2 * T) vr = ftlanes A d T v1 ++ ftlanes A d T v2.
Proof.
  intros est A d T e fe ie fe1 ie1 fe2 ie2 HV HT HI HF H1 H2 H3 H4 H5 H6 EF EI.
  assert (vsize (2 * T)) as HT2 by (destruct HT as [k ->]; exists (S k); rewrite Nat2Z.inj_succ, Z.pow_succ_r by lia; ring).
  destruct (float_program_spec est A d (2 * T) e fe ie HV HT2 HI HF H1 H2) as (vr & E & _ & L).
  destruct (float_program_spec est A d T e fe1 ie1 HV HT HI HF H3 H4) as (v1 & E1 & _ & L1).
  destruct (float_program_spec est A d T e fe2 ie2 HV HT HI HF H5 H6) as (v2 & E2 & _ & L2).
  exists vr, v1, v2. split; auto. split; auto. split; auto. rewrite L, L1, L2.
  assert (Z.to_nat (2 * T / fw d) = Z.to_nat (T / fw d) + Z.to_nat (T / fw d))%nat as ->.
  { destruct HT as [k ->]. rewrite <- Z2Nat.inj_add by (apply Z.div_pos; [pose proof (Z.pow_nonneg 2 (Z.of_nat k) ltac:(lia)); lia|destruct d; reflexivity]). f_equal.
    assert (128 = fw d * (128 / fw d) /\ 0 < fw d) as [E128 Hp] by (destruct d; split; reflexivity). set (q := 128 / fw d) in *. clearbody q. rewrite E128.
    replace (2 * (fw d * q * 2 ^ Z.of_nat k)) with (2 * q * 2 ^ Z.of_nat k * fw d) by ring.
    replace (fw d * q * 2 ^ Z.of_nat k) with (q * 2 ^ Z.of_nat k * fw d) by ring. rewrite !Z.div_mul by lia. ring. }
  assert (NF : forall v, ftyped A T v -> length (ftlanes A d T v) = Z.to_nat (T / fw d)).
  { intros v [_ Lv]. unfold ftlanes. rewrite lanes_length, Nat.mul_comm. apply lane_count; [apply fwok|exact Lv]. }
  assert (NI : forall v, typed A (fw d) T v -> length (tlanes A (fw d) T v) = Z.to_nat (T / fw d)).
  { intros v [_ Lv]. unfold tlanes. rewrite lanes_length, Nat.mul_comm. apply lane_count; [apply fwok|exact Lv]. }
  set (n := Z.to_nat (T / fw d)) in *. rewrite seq_app, map_app. f_equal.
  - apply map_ext_in. intros i Hi. apply in_seq in Hi. apply f_value_ext; intros k; [rewrite EF|rewrite EI]; rewrite app_nth1; auto;
      [rewrite (NF _ (H3 k))|rewrite (NI _ (H4 k))]; lia.
  - rewrite Nat.add_0_l. rewrite <- (Nat.add_0_r n) at 1. 
    assert (SH : seq (n + 0) n = map (fun i => (n + i)%nat) (seq 0 n)).
    { clear. generalize 0%nat at 1 2. intros a. generalize n at 2 4. intros m. revert a. induction m as [|m IH]; intros a; [reflexivity|]. cbn [seq map]. f_equal. rewrite <- Nat.add_succ_r. apply IH. }
    rewrite SH, map_map. apply map_ext. intros i. apply f_value_ext; intros k; [rewrite EF|rewrite EI]; rewrite app_nth2;
      rewrite ?(NF _ (H3 k)), ?(NI _ (H4 k)); try lia; f_equal; lia.
Qed.

(** x < 0 ? sqrt(|x|) : 2 * x + (float)(n + 1), on the lanes -4, 3, +inf, NaN *)
Definition prog_case : fexp :=
  FBlend (FUn FSqrt (FUn FAbs (FVar 0)))
         (FBin FAdd (FBin FMul (FConst 0x40000000) (FVar 0)) (FOfInt (IBin BAdd (IVar 0) (IConst 1))))
         (FCmp FLt (FVar 0) (FConst 0)).
Example float_program_case :
  f_fine arch_sse2 false prog_case /\ f_fine arch_neon64 false prog_case /\ ieee_unit arch_neon64 false = true /\
  (let x := pack 32 128 (fun i => nth (Z.to_nat i) [0xc0800000; 0x40400000; 0x7f800000; 0x7fc00000] 0) in
   let n := pack 32 128 (fun i => i + 9) in
   (let* r := frun (fun e => e) arch_sse2 false 128 prog_case (fun _ => [x]) (fun _ => [n]) in Ok (ftlanes arch_sse2 false 128 r)) =
     Ok [0x40000000; 0x41880000; 0x7f800000; f_qnan 32] /\
   (let* r := frun (fun e => e) arch_neon64 false 128 prog_case (fun _ => [x]) (fun _ => [n]) in Ok (ftlanes arch_neon64 false 128 r)) =
     Ok [0x40000000; 0x41880000; 0x7f800000; f_qnan 32]) /\
  (** on AVX without AVX2 a float32<8> is one register, an int32<8> two *)
  frun (fun e => e) arch_avx false 256 (FBits (IBin BAdd (IBits (FVar 0)) (IVar 0))) (fun _ => [splat 32 256 0x3f800000]) (fun _ => [1; 2 ^ 96]) =
    Ok [splat 32 256 0x3f800000 + 1 + 2 ^ 224].
Proof.
  split; [repeat split|]. split; [repeat split|]. split; [reflexivity|]. split; [split; vm_compute; reflexivity|vm_compute; reflexivity].
Qed.
