(** C37, C38: programs compute the same lanes on every instruction set and for every way of
    cutting a long vector into registers or into shorter vectors. *)
From Verif Require Import Spec.Masks Model.Program Proof.ConvertP Thm.T_Arith Thm.T_Bitwise Thm.T_Shift Thm.T_MinMax Thm.T_Cmp Thm.T_Blend Thm.T_Mul Thm.T_Const.

Lemma zipw_map {I X Y Z'} (g : X -> Y -> Z') (f1 : I -> X) (f2 : I -> Y) l : zipw g (map f1 l) (map f2 l) = map (fun i => g (f1 i) (f2 i)) l.
Proof. induction l; cbn [map zipw]; congruence. Qed.
Lemma zipw3_map {I X Y U V} (g : X -> Y -> U -> V) (f1 : I -> X) (f2 : I -> Y) (f3 : I -> U) l :
  zipw3 g (map f1 l) (map f2 l) (map f3 l) = map (fun i => g (f1 i) (f2 i) (f3 i)) l.
Proof. induction l; cbn [map zipw3]; congruence. Qed.

Scheme vexp_mut := Induction for vexp Sort Prop with mexp_mut := Induction for mexp Sort Prop.
Combined Scheme exp_mut from vexp_mut, mexp_mut.

Section P.
  Variables (A : arch) (w : ew) (s : rsz) (n : nat).
  Hypotheses (HV : valid_arch A = true) (HA : avail_int A (wb w) s = true).
  Let N := (n * nl (wb w) (rbits s))%nat.
  Definition isv (v : vec) (f : nat -> Z) : Prop := wfv s v /\ length v = n /\ lanes (wb w) s v = map f (seq 0 N).
  Definition ism (v : vec) (f : nat -> bool) : Prop := length v = n /\ masks A w s v (map f (seq 0 N)).
  Lemma order_ok : w <> W64 -> order_exists A w s. Proof. intros HW ->. contradiction. Qed.
  Lemma minmax_ok : w <> W64 -> minmax_exists A w s. Proof. intros HW ->. contradiction. Qed.

  Lemma c1 op g v f : computes1 (wb w) s op g -> isv v f -> exists r, op v = Ok r /\ isv r (fun i => g (f i)).
  Proof.
    intros HC (Wv & Lv & Ev). destruct (HC v Wv) as (r & E & Wr & Lr & Er). exists r. split; auto.
    split; auto. split; [lia|]. rewrite Er, Ev, map_map. reflexivity.
  Qed.
  Lemma c2 op g v1 v2 f1 f2 : computes2 (wb w) s op g -> isv v1 f1 -> isv v2 f2 -> exists r, op v1 v2 = Ok r /\ isv r (fun i => g (f1 i) (f2 i)).
  Proof.
    intros HC (Wv & Lv & Ev) (Wu & Lu & Eu). destruct (HC v1 v2 Wv Wu ltac:(lia)) as (r & E & Wr & Lr & Er). exists r. split; auto.
    split; auto. split; [lia|]. rewrite Er, Ev, Eu, zipw_map. reflexivity.
  Qed.
  Lemma cm2 op g v1 v2 f1 f2 : computesM2 A w s op g -> isv v1 f1 -> isv v2 f2 -> exists r, op v1 v2 = Ok r /\ ism r (fun i => g (f1 i) (f2 i)).
  Proof.
    intros HC (Wv & Lv & Ev) (Wu & Lu & Eu). destruct (HC v1 v2 Wv Wu ltac:(lia)) as (r & E & Lr & Er). exists r. split; auto.
    split; [lia|]. rewrite Ev, Eu, zipw_map in Er. exact Er.
  Qed.
  Lemma cmm2 op g v1 v2 f1 f2 : computesMM2 A w s op g -> ism v1 f1 -> ism v2 f2 -> exists r, op v1 v2 = Ok r /\ ism r (fun i => g (f1 i) (f2 i)).
  Proof.
    intros HC (Lv & Ev) (Lu & Eu). destruct (HC v1 v2 _ _ Ev Eu ltac:(lia)) as (r & E & Lr & Er). exists r. split; auto.
    split; [lia|]. rewrite zipw_map in Er. exact Er.
  Qed.

  Lemma run_u_ok o v f : u_fine w o -> isv v f -> exists r, run_u A w s o v = Ok r /\ isv r (fun i => u_val (wb w) o (f i)).
  Proof.
    intros HF Hv. refine (c1 (run_u A w s o) (u_val (wb w) o) _ _ _ Hv). destruct o as [|c|[|] c]; unfold run_u, u_val; cbn [u_fine] in *.
    - apply bit_not_spec; auto.
    - apply shift_l_spec; auto.
    - apply shift_r_signed_spec; auto.
    - apply shift_r_unsigned_spec; auto.
  Qed.
  Lemma run_b_ok o v1 v2 f1 f2 : b_fine w o -> isv v1 f1 -> isv v2 f2 ->
    exists r, run_b A w s o v1 v2 = Ok r /\ isv r (fun i => b_val (wb w) o (f1 i) (f2 i)).
  Proof.
    intros HF Hv Hu. refine (c2 (run_b A w s o) (b_val (wb w) o) _ _ _ _ _ Hv Hu). destruct o as [| | | | | | |[|]|[|]|[|]|[|]|[|]|[|]]; unfold run_b, b_val; cbn [b_fine] in *.
    - apply add_spec; auto.
    - apply sub_spec; auto.
    - rewrite HF in *. apply mul_lo32_spec; auto.
    - apply bit_and_spec; auto.
    - apply bit_or_spec; auto.
    - apply bit_xor_spec; auto.
    - apply bit_andnot_spec; auto.
    - apply min_signed_partial; auto using minmax_ok.
    - apply min_unsigned_partial; auto using minmax_ok.
    - apply max_signed_partial; auto using minmax_ok.
    - apply max_unsigned_partial; auto using minmax_ok.
    - apply avg_signed_spec; auto.
    - apply avg_unsigned_spec; auto.
    - apply avg_trunc_signed_spec; auto.
    - apply avg_trunc_unsigned_spec; auto.
    - apply add_sat_s_spec; auto.
    - apply add_sat_u_spec; auto.
    - apply sub_sat_s_spec; auto.
    - apply sub_sat_u_spec; auto.
  Qed.
  Lemma run_c_ok o v1 v2 f1 f2 : c_fine w o -> isv v1 f1 -> isv v2 f2 ->
    exists r, run_c A w s o v1 v2 = Ok r /\ ism r (fun i => c_val (wb w) o (f1 i) (f2 i)).
  Proof.
    intros HF Hv Hu. destruct o as [| |[|]|[|]|[|]|[|]]; cbn [run_c c_val c_fine num] in *.
    - refine (cm2 _ _ _ _ _ _ _ Hv Hu). apply cmp_eq_spec; auto.
    - refine (cm2 _ (fun x y => negb (x =? y)) _ _ _ _ _ Hv Hu). apply cmp_neq_partial; auto; intros E; contradiction.
    - refine (cm2 _ (fun x y => sgn (wb w) x <? sgn (wb w) y) _ _ _ _ _ Hv Hu). apply cmp_lt_signed_partial; auto using order_ok.
    - refine (cm2 _ (fun x y => x <? y) _ _ _ _ _ Hv Hu). apply cmp_lt_unsigned_partial; auto using order_ok.
    - refine (cm2 _ (fun x y => sgn (wb w) x <=? sgn (wb w) y) _ _ _ _ _ Hv Hu). apply cmp_le_signed_partial; auto using order_ok.
    - refine (cm2 _ (fun x y => x <=? y) _ _ _ _ _ Hv Hu). apply cmp_le_unsigned_partial; auto using order_ok.
    - refine (cm2 _ (fun x y => sgn (wb w) y <? sgn (wb w) x) _ _ _ _ _ Hv Hu). apply cmp_gt_signed_partial; auto using order_ok.
    - refine (cm2 _ (fun x y => y <? x) _ _ _ _ _ Hv Hu). apply cmp_gt_unsigned_partial; auto using order_ok.
    - refine (cm2 _ (fun x y => sgn (wb w) y <=? sgn (wb w) x) _ _ _ _ _ Hv Hu). apply cmp_ge_signed_partial; auto using order_ok.
    - refine (cm2 _ (fun x y => y <=? x) _ _ _ _ _ Hv Hu). apply cmp_ge_unsigned_partial; auto using order_ok.
  Qed.
  Lemma run_k_ok o v1 v2 f1 f2 : ism v1 f1 -> ism v2 f2 ->
    exists r, run_k A w s o v1 v2 = Ok r /\ ism r (fun i => k_val o (f1 i) (f2 i)).
  Proof.
    intros Hv Hu. refine (cmm2 (run_k A w s o) (k_val o) _ _ _ _ _ Hv Hu). destruct o; unfold run_k, k_val.
    - apply bit_and_mm_spec; auto.
    - apply bit_or_mm_spec; auto.
    - apply bit_xor_mm_spec; auto.
    - apply bit_andnot_mm_spec; auto.
  Qed.
  Lemma const_ok c : exists r, make_const A w s [c] n = Ok r /\ isv r (fun _ => c mod 2 ^ wb w).
  Proof.
    destruct (make_const_spec A w s [c] n HV HA ltac:(cbn; lia)) as (r & E & Wr & Lr & Er).
    exists r. split; auto. split; auto. split; auto. rewrite Er. unfold zrange.
    rewrite map_map.
    assert (Z.to_nat (Z.of_nat n * (rbits s / wb w)) = N) as -> by (unfold N, nl; destruct w, s; cbn; lia).
    apply map_ext. intros i. unfold cyclic. cbn [length]. rewrite Z.mod_1_r. reflexivity.
  Qed.
  Variables (env : nat -> vec) (val : nat -> nat -> Z).
  Hypothesis Henv : forall k, isv (env k) (val k).
  Lemma run_ok : (forall e, v_fine w e -> exists r, run A w s n e env = Ok r /\ isv r (fun i => v_val (wb w) e (fun k => val k i))) /\
                 (forall m, m_fine w m -> exists r, run_m A w s n m env = Ok r /\ ism r (fun i => m_val (wb w) m (fun k => val k i))).
  Proof.
    apply exp_mut.
    - intros k _. exists (env k). split; [reflexivity|]. apply Henv.
    - intros c _. apply const_ok.
    - intros o e IH [Ho He]. destruct (IH He) as (v & E & Hv). cbn [run]. rewrite E. cbn [bind]. apply (run_u_ok o v _ Ho Hv).
    - intros o e1 IH1 e2 IH2 (Ho & H1 & H2). destruct (IH1 H1) as (v1 & E1 & Hv1). destruct (IH2 H2) as (v2 & E2 & Hv2).
      cbn [run]. rewrite E1, E2. cbn [bind]. apply (run_b_ok o _ _ _ _ Ho Hv1 Hv2).
    - intros e1 IH1 e2 IH2 m IHm (H1 & H2 & Hm). destruct (IH1 H1) as (v1 & E1 & W1 & L1 & Ev1). destruct (IH2 H2) as (v2 & E2 & W2 & L2 & Ev2).
      destruct (IHm Hm) as (vm & Em & Lm & Hvm). cbn [run]. rewrite E1, E2, Em. cbn [bind].
      destruct (blend_mask_spec A w s HV HA v1 v2 vm _ W1 W2 Hvm ltac:(lia) ltac:(lia)) as (r & Er & Wr & Lr & Evr).
      exists r. split; auto. split; auto. split; [lia|]. rewrite Evr, Ev1, Ev2, zipw3_map. reflexivity.
    - intros o e1 IH1 e2 IH2 (Ho & H1 & H2). destruct (IH1 H1) as (v1 & E1 & Hv1). destruct (IH2 H2) as (v2 & E2 & Hv2).
      cbn [run_m]. rewrite E1, E2. cbn [bind]. apply (run_c_ok o _ _ _ _ Ho Hv1 Hv2).
    - intros o m1 IH1 m2 IH2 (H1 & H2). destruct (IH1 H1) as (v1 & E1 & Hv1). destruct (IH2 H2) as (v2 & E2 & Hv2).
      cbn [run_m]. rewrite E1, E2. cbn [bind]. apply (run_k_ok o _ _ _ _ Hv1 Hv2).
    - intros m IH Hm. destruct (IH Hm) as (v & E & Lv & Hv). cbn [run_m]. rewrite E. cbn [bind].
      destruct (bit_not_m_spec A w s HV HA v _ Hv) as (r & Er & Lr & Hr). exists r. split; auto. split; [lia|].
      rewrite map_map in Hr. exact Hr.
  Qed.
End P.

Lemma list_as_map (l : list Z) : l = map (fun i => nth i l 0) (seq 0 (length l)).
Proof.
  apply (nth_ext _ _ 0 0); [rewrite map_length, seq_length; reflexivity|]. intros i Hi.
  rewrite (nth_indep (map _ _) 0 (nth 0 l 0)) by (rewrite map_length, seq_length; auto).
  rewrite (map_nth (fun i => nth i l 0)), seq_nth by auto. reflexivity.
Qed.
(** Every program succeeds, and lane i of its result depends only on lane i of its inputs,
    through the operators' arithmetic meaning. *)
Theorem program_spec : forall A w T e env, valid_arch A = true -> vsize T -> v_fine w e ->
  (forall k, typed A (wb w) T (env k)) ->
  exists vr, run_program A w T e env = Ok vr /\ typed A (wb w) T vr /\
    tlanes A (wb w) T vr = map (fun i => v_val (wb w) e (fun k => nth i (tlanes A (wb w) T (env k)) 0)) (seq 0 (Z.to_nat (T / wb w))).
Proof.
  intros A w T e env HV HT HF Henv. set (s := vreg A (wb w) T). set (n := vlen A (wb w) T).
  assert (avail_int A (wb w) s = true) as HA by (apply vreg_avail; auto).
  assert (forall v, typed A (wb w) T v -> length (tlanes A (wb w) T v) = (n * nl (wb w) (rbits s))%nat) as HLn.
  { intros v Hv. unfold tlanes, n. rewrite <- (typed_len _ _ _ _ Hv). fold s. clear. induction v as [|x v IH]; [reflexivity|].
    rewrite lanes_cons, app_length, elems_length, IH. cbn [length]. lia. }
  destruct (proj1 (run_ok A w s n HV HA env (fun k i => nth i (tlanes A (wb w) T (env k)) 0)
    ltac:(intros k; split; [apply Henv|]; split; [apply typed_len, Henv|]; rewrite <- (HLn (env k) (Henv k)); apply list_as_map)) e HF) as (r & E & Wr & Lr & Er).
  exists r. assert (typed A (wb w) T r) as Hr.
  { split; auto. fold s. rewrite Lr. unfold n. rewrite <- (typed_len _ _ _ _ (Henv O%nat)). apply (Henv 0%nat). }
  split; auto. split; auto. unfold tlanes. fold s. rewrite Er. do 2 f_equal. unfold n.
  rewrite <- (typed_len _ _ _ _ (Henv O%nat)). destruct (Henv 0%nat) as [_ HT2]. fold s in HT2. rewrite <- HT2 at 1. unfold nl. clear.
  rewrite <- (Nat2Z.id (_ * _)), Nat2Z.inj_mul. f_equal.
  assert (rbits s = wb w * (rbits s / wb w) /\ 0 < wb w /\ 0 <= rbits s / wb w) as (E & Hp & Hq) by (destruct s, w; repeat split; try reflexivity; discriminate).
  rewrite Z2Nat.id by auto. rewrite E at 2. symmetry. rewrite (Z.mul_comm (wb w)), Z.mul_assoc. apply Z.div_mul. lia.
Qed.
Lemma v_val_ext w e f g : (forall k, f k = g k) -> v_val w e f = v_val w e g.
Proof.
  intros Hfg. apply (vexp_mut (fun e => v_val w e f = v_val w e g) (fun m => m_val w m f = m_val w m g));
    intros; cbn [v_val m_val]; auto; repeat match goal with H : _ = _ |- _ => rewrite H; clear H end; auto.
Qed.
(** C38: two configurations, the same input lanes: the same output lanes. *)
Theorem programs_are_portable : forall A A' w T e env env', valid_arch A = true -> valid_arch A' = true -> vsize T -> v_fine w e ->
  (forall k, typed A (wb w) T (env k)) -> (forall k, typed A' (wb w) T (env' k)) ->
  (forall k, tlanes A (wb w) T (env k) = tlanes A' (wb w) T (env' k)) ->
  exists vr vr', run_program A w T e env = Ok vr /\ run_program A' w T e env' = Ok vr' /\
    tlanes A (wb w) T vr = tlanes A' (wb w) T vr'.
Proof.
  intros A A' w T e env env' HV HV' HT HF He He' HE.
  destruct (program_spec A w T e env HV HT HF He) as (vr & E & _ & L).
  destruct (program_spec A' w T e env' HV' HT HF He') as (vr' & E' & _ & L').
  exists vr, vr'. split; auto. split; auto. rewrite L, L'. apply map_ext. intros i.
  apply v_val_ext. intros k. rewrite HE. reflexivity.
Qed.

(** C37: a vector of 2T bits whose lanes are the lanes of two vectors of T bits one after
    the other: the program applied to it gives the two results one after the other. *)
Theorem programs_split : forall A w T e env env1 env2, valid_arch A = true -> vsize T -> v_fine w e ->
  (forall k, typed A (wb w) (2 * T) (env k)) -> (forall k, typed A (wb w) T (env1 k)) -> (forall k, typed A (wb w) T (env2 k)) ->
  (forall k, tlanes A (wb w) (2 * T) (env k) = tlanes A (wb w) T (env1 k) ++ tlanes A (wb w) T (env2 k)) ->
  exists vr v1 v2, run_program A w (2 * T) e env = Ok vr /\ run_program A w T e env1 = Ok v1 /\ run_program A w T e env2 = Ok v2 /\
    tlanes A (wb w) (2 * T) vr = tlanes A (wb w) T v1 ++ tlanes A (wb w) T v2.
Proof.
  intros A w T e env env1 env2 HV HT HF He He1 He2 HE.
  assert (vsize (2 * T)) as HT2 by (destruct HT as [k ->]; exists (S k); rewrite Nat2Z.inj_succ, Z.pow_succ_r by lia; ring).
  destruct (program_spec A w (2 * T) e env HV HT2 HF He) as (vr & E & _ & L).
  destruct (program_spec A w T e env1 HV HT HF He1) as (v1 & E1 & _ & L1).
  destruct (program_spec A w T e env2 HV HT HF He2) as (v2 & E2 & _ & L2).
  exists vr, v1, v2. split; auto. split; auto. split; auto. rewrite L, L1, L2.
  assert (Z.to_nat (2 * T / wb w) = Z.to_nat (T / wb w) + Z.to_nat (T / wb w))%nat as ->.
  { destruct HT as [k ->]. rewrite <- Z2Nat.inj_add by (apply Z.div_pos; [pose proof (Z.pow_nonneg 2 (Z.of_nat k) ltac:(lia)); lia|destruct w; reflexivity]). f_equal.
    assert (128 = wb w * (128 / wb w) /\ 0 < wb w) as [E128 Hp] by (destruct w; split; reflexivity). set (q := 128 / wb w) in *. clearbody q. rewrite E128.
    replace (2 * (wb w * q * 2 ^ Z.of_nat k)) with (2 * q * 2 ^ Z.of_nat k * wb w) by ring.
    replace (wb w * q * 2 ^ Z.of_nat k) with (q * 2 ^ Z.of_nat k * wb w) by ring. rewrite !Z.div_mul by lia. ring. }
  set (n := Z.to_nat (T / wb w)).
  assert (forall k, length (tlanes A (wb w) T (env1 k)) = n) as Hn.
  { intros k. destruct (program_spec A w T (EVar k) env1 HV HT I He1) as (v & Ev & _ & Lv). injection Ev as <-. rewrite Lv, map_length, seq_length. reflexivity. }
  rewrite seq_app, map_app. cbn [Nat.add]. rewrite (seq_shift_map _ n).
  f_equal; apply map_ext_in; intros i Hi; apply in_seq in Hi; apply v_val_ext; intros k; rewrite HE.
  - apply app_nth1. rewrite Hn. lia.
  - rewrite app_nth2 by (rewrite Hn; lia). rewrite Hn. f_equal. lia.
Qed.

(** A program that clamps a difference and counts matches, run by SSE2, NEON, AVX2 and the
    null backend. *)
Definition prog_ex : vexp := EBlend (EBin (BAddSat true) (EVar 0) (EConst 100)) (EUn (UShr true 1) (EBin BSub (EVar 0) (EVar 1))) (MNot (MCmp (CLt true) (EVar 0) (EVar 1))).
Example prog_ex_fine : v_fine W8 prog_ex. Proof. unfold prog_ex. cbn [v_fine m_fine u_fine b_fine c_fine wb]. repeat split; auto; try lia; discriminate. Qed.
Example prog_ex_runs :
  run_program arch_sse2 W8 256 prog_ex (fun k => [100 + Z.of_nat k; 250]) = run_program arch_null W8 256 prog_ex (fun k => [100 + Z.of_nat k; 250]) /\
  run_program arch_neon32 W8 256 prog_ex (fun k => [100 + Z.of_nat k; 250]) = run_program arch_null W8 256 prog_ex (fun k => [100 + Z.of_nat k; 250]) /\
  exists x y, run_program arch_null W8 256 prog_ex (fun k => [100 + Z.of_nat k; 250]) = Ok [x; y] /\
    run_program arch_avx2 W8 256 prog_ex (fun k => [100 + Z.of_nat k + 2 ^ 128 * 250]) = Ok [x + 2 ^ 128 * y] /\ lane 8 0 x = 255 /\ lane 8 1 x = 100.
Proof.
  split; [vm_compute; reflexivity|]. split; [vm_compute; reflexivity|].
  exists 0x646464646464646464646464646464ff, 0x6464646464646464646464646464645e.
  split; [vm_compute; reflexivity|]. split; [vm_compute; reflexivity|]. split; vm_compute; reflexivity.
Qed.
