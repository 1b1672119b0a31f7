(** C37, C38: programs that rearrange lanes. *)
From Verif Require Import Spec.Masks Model.SProgram Proof.ConvertP Thm.T_Blend Thm.T_Const Thm.T_Cmp Thm.T_Shuffle Thm.T_Shuffle2 Thm.T_Bitwise Thm.T_Arith Thm.T_Abs Thm.T_Popcnt Thm.T_Mul Thm.T_Program.

Scheme sexp_mut := Induction for sexp Sort Prop with smexp_mut := Induction for smexp Sort Prop.
Combined Scheme smexp_both from sexp_mut, smexp_mut.

(** positions inside groups *)
Lemma grp_in g N i j : 0 < g -> (g | N) -> 0 <= i < N -> 0 <= j < g -> 0 <= g * (i / g) + j < N.
Proof.
  intros Hg [c ->] Hi Hj. assert (0 <= i / g) by (apply Z.div_pos; lia).
  assert (i / g < c) by (apply Z.div_lt_upper_bound; lia). nia.
Qed.
Lemma grp_blk g q i j : 0 < g -> 0 < q -> (g | q) -> 0 <= j < g -> (g * (i / g) + j) / q = i / q.
Proof.
  intros Hg Hq [c ->] Hj. assert (0 < c) by nia. rewrite (Z.mul_comm c g), <- !Z.div_div by lia.
  rewrite (Z.mul_comm g (i / g)), Z.div_add_l by lia. rewrite (Z.div_small j) by lia. rewrite Z.add_0_r. reflexivity.
Qed.
Lemma h1_group_pos w o : h1_fine w o -> 0 < h1_group (wb w) o. Proof. destruct o, w; cbn; lia. Qed.
Lemma h2_group_pos w o : h2_fine w o -> 0 < h2_group (wb w) o. Proof. destruct o, w; cbn; lia. Qed.
Lemma h1_group_blk w o : h1_fine w o -> (h1_group (wb w) o | block_lanes (wb w)).
Proof.
  destruct o; cbn [h1_group h1_fine]; try (intros _; apply Z.divide_refl); intros H.
  - destruct w; [destruct H as [[] _]; reflexivity|exists 4; reflexivity|exists 2; reflexivity|exists 1; reflexivity].
  - destruct H as [[-> | ->] _]; [exists 2; reflexivity|exists 1; reflexivity].
Qed.
Lemma h2_group_blk w o : h2_fine w o -> (h2_group (wb w) o | block_lanes (wb w)).
Proof.
  destruct o; cbn [h2_group h2_fine]; try (intros _; apply Z.divide_refl); intros H; destruct H as [-> _]; exists 1; reflexivity.
Qed.
Lemma h1_in w o : h1_fine w o -> in_range (h1_group (wb w) o) (h1_sel (wb w) o) = true.
Proof.
  destruct o; cbn [h1_group h1_fine h1_sel]; intros HF.
  - assert (0 < block_lanes (wb w)) by (destruct w; reflexivity). inr.
  - assert (0 < block_lanes (wb w)) by (destruct w; reflexivity). inr.
  - inr.
  - inr.
  - inr.
Qed.
Lemma h2_in w o : h2_fine w o -> in_range (h2_group (wb w) o) (h2_sel (wb w) o) = true.
Proof.
  destruct o; cbn [h2_group h2_fine h2_sel]; intros HF.
  - destruct w; reflexivity.
  - destruct w; reflexivity.
  - destruct w; reflexivity.
  - destruct w; reflexivity.
  - assert (0 < block_lanes (wb w)) by (destruct w; reflexivity). inr.
  - inr.
  - inr.
Qed.
Lemma run_h1_spec A w s o : valid_arch A = true -> avail_int A (wb w) s = true -> h1_fine w o ->
  computesS1 (wb w) s (h1_group (wb w) o) (run_h1 A w s o) (h1_sel (wb w) o).
Proof.
  intros HV HA HF. assert (avail_et A (iet w) s = true) as HE by (destruct w; exact HA).
  assert (eb (iet w) = wb w) as Eb by (destruct w; reflexivity). assert (en (iet w) = block_lanes (wb w)) as En by (destruct w; reflexivity).
  unfold run_h1. destruct o; cbn [h1_group h1_sel h1_fine] in *; rewrite <- ?En, <- ?Eb in *.
  - apply move_l_spec; auto.
  - apply move_r_spec; auto.
  - apply permute2_spec; try tauto. destruct w; [exfalso; apply (proj1 HF); reflexivity|discriminate..].
  - apply permute4_spec; try tauto. destruct HF as [[-> | ->] _]; cbn; auto.
  - apply splat_n_spec; auto.
Qed.
Lemma run_h2_spec A w s o : valid_arch A = true -> avail_int A (wb w) s = true -> h2_fine w o ->
  computesS2 (wb w) s (h2_group (wb w) o) (run_h2 A w s o) (h2_sel (wb w) o).
Proof.
  intros HV HA HF. assert (avail_et A (iet w) s = true) as HE by (destruct w; exact HA).
  assert (eb (iet w) = wb w) as Eb by (destruct w; reflexivity). assert (en (iet w) = block_lanes (wb w)) as En by (destruct w; reflexivity).
  unfold run_h2. destruct o; cbn [h2_group h2_sel h2_fine] in *; rewrite <- ?En, <- ?Eb in *.
  - apply zip_lo_spec; auto.
  - apply zip_hi_spec; auto.
  - apply unzip_lo_spec; auto.
  - apply unzip_hi_spec; auto.
  - apply align_spec; auto.
  - destruct HF as [-> HF]. apply shuffle1_spec; cbn; tauto.
  - destruct HF as [-> HF]. change (eb (iet W32)) with 32. apply shuffle2_spec; cbn; tauto.
Qed.

Lemma run_x1_spec A w s o : valid_arch A = true -> avail_int A (wb w) s = true -> x1_fine w o ->
  computes1 (wb w) s (run_x1 A w s o) (x1_val (wb w) o).
Proof.
  intros HV HA HF. destruct o; unfold run_x1, x1_val; cbn [x1_fine] in HF.
  - intros va Hva. apply (neg_partial A w s HV HA va Hva). apply Forall_forall. intros x _ _ Hw. destruct HF as [-> | ->]; cbn in Hw; lia.
  - intros va Hva. apply (abs_partial A w s HV HA va Hva). apply Forall_forall. intros x _ _ Hw. destruct HF as [-> | ->]; cbn in Hw; lia.
  - apply popcnt_spec; auto.
Qed.
Lemma mul_hi_ok A sg s : valid_arch A = true -> avail_int A 16 s = true -> computes2 16 s (mul_hi A sg s) (mul_hi_val sg 16).
Proof. intros. destruct sg; [apply mul_hi_signed_spec|apply mul_hi_unsigned_spec]; auto. Qed.

Section P.
  Variables (A : arch) (w : ew) (s : rsz) (n : nat).
  Hypotheses (HV : valid_arch A = true) (HA : avail_int A (wb w) s = true).
  Let N := (n * nl (wb w) (rbits s))%nat.
  Lemma blk_N : (block_lanes (wb w) | Z.of_nat N).
  Proof.
    unfold N. rewrite Nat2Z.inj_mul. apply Z.divide_mul_r.
    destruct w, s; cbn; [exists 1|exists 2|exists 4|exists 1|exists 2|exists 4|exists 1|exists 2|exists 4|exists 1|exists 2|exists 4]; reflexivity.
  Qed.
  Lemma nth_seq_map (f : nat -> Z) k : (k < N)%nat -> nth k (map f (seq 0 N)) 0 = f k.
  Proof.
    intros Hk. rewrite (nth_indep _ 0 (f O)) by (rewrite map_length, seq_length; auto).
    rewrite map_nth, seq_nth by auto. reflexivity.
  Qed.
  Lemma sh1_ok op g L v f : computesS1 (wb w) s g op L -> 0 < g -> (g | block_lanes (wb w)) -> in_range g L = true ->
    isv w s n v f -> exists r, op v = Ok r /\ isv w s n r (from_group g L (args1 f)).
  Proof.
    intros HC Hg HD HI (Wv & Lv & Ev). destruct (HC v Wv) as (r & E & Wr & Lr & Er). exists r. split; auto.
    split; auto. split; [lia|]. rewrite Er, Ev. unfold grouped, zrange. cbn [hd]. rewrite map_map, Nat2Z.id. rewrite map_length, seq_length.
    apply map_ext_in. intros i Hi. apply in_seq in Hi. unfold pick, from_group. fold N in Hi |- *.
    destruct (L (Z.of_nat i mod g)) as [[m j]|] eqn:EL; [|reflexivity].
    assert (0 <= j < g) as Hj by (apply (in_range_spec _ _ HI (Z.of_nat i mod g) m); auto; apply Z.mod_pos_bound; lia).
    assert (0 <= g * (Z.of_nat i / g) + j < Z.of_nat N) as Hk.
    { apply grp_in; auto; [|lia]. apply (Z.divide_trans _ _ _ HD). apply blk_N. }
    destruct m as [|m]; cbn [nth args1]; [apply nth_seq_map; lia|]. destruct m; cbn; destruct (Z.to_nat _); reflexivity.
  Qed.
  Lemma sh2_ok op g L v1 v2 f1 f2 : computesS2 (wb w) s g op L -> 0 < g -> (g | block_lanes (wb w)) -> in_range g L = true ->
    isv w s n v1 f1 -> isv w s n v2 f2 -> exists r, op v1 v2 = Ok r /\ isv w s n r (from_group g L (args2 f1 f2)).
  Proof.
    intros HC Hg HD HI (Wv & Lv & Ev) (Wu & Lu & Eu). destruct (HC v1 v2 Wv Wu ltac:(lia)) as (r & E & Wr & Lr & Er). exists r. split; auto.
    split; auto. split; [lia|]. rewrite Er, Ev, Eu. unfold grouped, zrange. cbn [hd]. rewrite map_map, Nat2Z.id. rewrite map_length, seq_length.
    apply map_ext_in. intros i Hi. apply in_seq in Hi. unfold pick, from_group. fold N in Hi |- *.
    destruct (L (Z.of_nat i mod g)) as [[m j]|] eqn:EL; [|reflexivity].
    assert (0 <= j < g) as Hj by (apply (in_range_spec _ _ HI (Z.of_nat i mod g) m); auto; apply Z.mod_pos_bound; lia).
    assert (0 <= g * (Z.of_nat i / g) + j < Z.of_nat N) as Hk.
    { apply grp_in; auto; [|lia]. apply (Z.divide_trans _ _ _ HD). apply blk_N. }
    destruct m as [|[|m]]; cbn [nth args2]; [apply nth_seq_map; lia|apply nth_seq_map; lia|]. destruct m; cbn; destruct (Z.to_nat _); reflexivity.
  Qed.
  Variables (env : nat -> vec) (val : nat -> nat -> Z).
  Hypothesis Henv : forall k, isv w s n (env k) (val k).
  Lemma srun_ok : (forall e, s_fine w e -> exists r, srun A w s n e env = Ok r /\ isv w s n r (s_val (wb w) e val)) /\
                  (forall m, sm_fine w m -> exists r, srun_m A w s n m env = Ok r /\ ism A w s n r (sm_val (wb w) m val)).
  Proof.
    apply smexp_both.
    - intros k _. exists (env k). split; [reflexivity|]. apply Henv.
    - intros c _. apply (const_ok A w s n HV HA).
    - intros o e IH [Ho He]. destruct (IH He) as (v & E & Hv). cbn [srun]. rewrite E. cbn [bind]. apply (run_u_ok A w s n HV HA o v _ Ho Hv).
    - intros o e1 IH1 e2 IH2 (Ho & H1 & H2). destruct (IH1 H1) as (v1 & E1 & Hv1). destruct (IH2 H2) as (v2 & E2 & Hv2).
      cbn [srun]. rewrite E1, E2. cbn [bind]. apply (run_b_ok A w s n HV HA o _ _ _ _ Ho Hv1 Hv2).
    - intros e1 IH1 e2 IH2 m IHm (H1 & H2 & Hm). destruct (IH1 H1) as (v1 & E1 & W1 & L1 & Ev1). destruct (IH2 H2) as (v2 & E2 & W2 & L2 & Ev2).
      destruct (IHm Hm) as (vm & Em & Lm & Hvm). cbn [srun]. rewrite E1, E2, Em. cbn [bind].
      destruct (blend_mask_spec A w s HV HA v1 v2 vm _ W1 W2 Hvm ltac:(lia) ltac:(lia)) as (r & Er & Wr & Lr & Evr).
      exists r. split; auto. split; auto. split; [lia|]. rewrite Evr, Ev1, Ev2, zipw3_map. reflexivity.
    - intros o e IH [Ho He]. destruct (IH He) as (v & E & Hv). cbn [srun]. rewrite E. cbn [bind].
      exact (c1 w s n (run_x1 A w s o) _ _ _ (run_x1_spec A w s o HV HA Ho) Hv).
    - intros sg e1 IH1 e2 IH2 (Hw & H1 & H2). destruct (IH1 H1) as (v1 & E1 & Hv1). destruct (IH2 H2) as (v2 & E2 & Hv2).
      cbn [srun]. rewrite E1, E2. cbn [bind]. refine (c2 w s n (mul_hi A sg s) (mul_hi_val sg (wb w)) _ _ _ _ _ Hv1 Hv2).
      subst w. apply mul_hi_ok; auto.
    - intros o e IH [Ho He]. destruct (IH He) as (v & E & Hv). cbn [srun]. rewrite E. cbn [bind].
      apply sh1_ok; auto using run_h1_spec, h1_group_pos, h1_group_blk, h1_in.
    - intros o e1 IH1 e2 IH2 (Ho & H1 & H2). destruct (IH1 H1) as (v1 & E1 & Hv1). destruct (IH2 H2) as (v2 & E2 & Hv2).
      cbn [srun]. rewrite E1, E2. cbn [bind]. apply sh2_ok; auto using run_h2_spec, h2_group_pos, h2_group_blk, h2_in.
    - intros o e1 IH1 e2 IH2 (Ho & H1 & H2). destruct (IH1 H1) as (v1 & E1 & Hv1). destruct (IH2 H2) as (v2 & E2 & Hv2).
      cbn [srun_m]. rewrite E1, E2. cbn [bind]. apply (run_c_ok A w s n HV HA o _ _ _ _ Ho Hv1 Hv2).
    - intros o m1 IH1 m2 IH2 (H1 & H2). destruct (IH1 H1) as (v1 & E1 & Hv1). destruct (IH2 H2) as (v2 & E2 & Hv2).
      cbn [srun_m]. rewrite E1, E2. cbn [bind]. apply (run_k_ok A w s n HV HA o _ _ _ _ Hv1 Hv2).
    - intros m IH Hm. destruct (IH Hm) as (v & E & Lv & Hv). cbn [srun_m]. rewrite E. cbn [bind].
      destruct (bit_not_m_spec A w s HV HA v _ Hv) as (r & Er & Lr & Hr). exists r. split; auto. split; [lia|].
      rewrite map_map in Hr. exact Hr.
  Qed.
End P.

(** Every program succeeds, and the lanes of its result are those the operators and the lane
    selections describe. *)
Theorem shuffle_program_spec : forall A w T e env, valid_arch A = true -> vsize T -> s_fine w e ->
  (forall k, typed A (wb w) T (env k)) ->
  exists vr, run_sprogram A w T e env = Ok vr /\ typed A (wb w) T vr /\
    tlanes A (wb w) T vr = map (s_val (wb w) e (fun k i => nth i (tlanes A (wb w) T (env k)) 0)) (seq 0 (Z.to_nat (T / wb w))).
Proof.
  intros A w T e env HV HT HF Henv. set (s := vreg A (wb w) T). set (n := Convert.vlen A (wb w) T).
  assert (avail_int A (wb w) s = true) as HA by (apply vreg_avail; auto).
  assert (forall v, typed A (wb w) T v -> length (tlanes A (wb w) T v) = (n * nl (wb w) (rbits s))%nat) as HLn.
  { intros v Hv. unfold tlanes, n. rewrite <- (typed_len _ _ _ _ Hv). fold s. clear. induction v as [|x v IH]; [reflexivity|].
    rewrite lanes_cons, app_length, elems_length, IH. cbn [length]. lia. }
  destruct (proj1 (srun_ok A w s n HV HA env (fun k i => nth i (tlanes A (wb w) T (env k)) 0)
    ltac:(intros k; split; [apply Henv|]; split; [apply typed_len, Henv|]; rewrite <- (HLn (env k) (Henv k)); apply list_as_map)) e HF) as (r & E & Wr & Lr & Er).
  exists r. assert (typed A (wb w) T r) as Hr.
  { split; auto. fold s. rewrite Lr. unfold n. rewrite <- (typed_len _ _ _ _ (Henv O%nat)). apply (Henv 0%nat). }
  split; auto. split; auto. unfold tlanes at 1. fold s. rewrite Er. f_equal. f_equal. unfold n.
  rewrite <- (typed_len _ _ _ _ (Henv O%nat)). destruct (Henv 0%nat) as [_ HT2]. fold s in HT2. rewrite <- HT2 at 1. unfold nl. clear.
  rewrite <- (Nat2Z.id (_ * _)), Nat2Z.inj_mul. f_equal.
  assert (rbits s = wb w * (rbits s / wb w) /\ 0 < wb w /\ 0 <= rbits s / wb w) as (E & Hp & Hq) by (destruct s, w; repeat split; try reflexivity; discriminate).
  rewrite Z2Nat.id by auto. rewrite E at 2. symmetry. rewrite (Z.mul_comm (wb w)), Z.mul_assoc. apply Z.div_mul. lia.
Qed.

(** Locality: lane i + d, d a whole number of 128-bit blocks, depends only on the lanes of
    block i/q moved by d. *)
Lemma from_group_loc g q L f f' d i : 0 < g -> 0 < q -> (g | q) -> (q | Z.of_nat d) -> in_range g L = true ->
  (forall m k, Z.of_nat k / q = Z.of_nat i / q -> f m (k + d)%nat = f' m k) ->
  from_group g L f (i + d) = from_group g L f' i.
Proof.
  intros Hg Hq HD HQ HI Hf. unfold from_group.
  destruct (Z.divide_trans _ _ _ HD HQ) as [c Ec]. rewrite Nat2Z.inj_add, Ec, Z.mod_add, Z.div_add by lia.
  destruct (L (Z.of_nat i mod g)) as [[m j]|] eqn:EL; [|reflexivity].
  assert (0 <= j < g) as Hj by (apply (in_range_spec _ _ HI (Z.of_nat i mod g) m); auto; apply Z.mod_pos_bound; lia).
  assert (0 <= Z.of_nat i / g) by (apply Z.div_pos; lia). assert (0 <= g * (Z.of_nat i / g)) by (apply Z.mul_nonneg_nonneg; lia).
  rewrite <- (Hf m (Z.to_nat (g * (Z.of_nat i / g) + j))).
  - f_equal. rewrite <- (Nat2Z.id (_ + d)), Nat2Z.inj_add, Z2Nat.id, Ec by lia. f_equal. ring.
  - rewrite Z2Nat.id by lia. apply grp_blk; auto.
Qed.
Lemma s_val_loc w d b env env' : (block_lanes (wb w) | Z.of_nat d) ->
  (forall k i, Z.of_nat i / block_lanes (wb w) = b -> env k (i + d)%nat = env' k i) ->
  (forall e, s_fine w e -> forall i, Z.of_nat i / block_lanes (wb w) = b -> s_val (wb w) e env (i + d) = s_val (wb w) e env' i) /\
  (forall m, sm_fine w m -> forall i, Z.of_nat i / block_lanes (wb w) = b -> sm_val (wb w) m env (i + d) = sm_val (wb w) m env' i).
Proof.
  intros HD He. assert (0 < block_lanes (wb w)) as Hq by (destruct w; reflexivity). apply smexp_both; cbn [s_val sm_val s_fine sm_fine].
  - intros k _ i Hi. apply He; auto.
  - reflexivity.
  - intros o e IH [_ HF] i Hi. rewrite IH; auto.
  - intros o e1 IH1 e2 IH2 (_ & H1 & H2) i Hi. rewrite IH1, IH2; auto.
  - intros e1 IH1 e2 IH2 m IHm (H1 & H2 & Hm) i Hi. rewrite IH1, IH2, IHm; auto.
  - intros o e IH [_ HF] i Hi. rewrite IH; auto.
  - intros sg e1 IH1 e2 IH2 (_ & H1 & H2) i Hi. rewrite IH1, IH2; auto.
  - intros o e IH [Ho HF] i Hi. apply (from_group_loc _ (block_lanes (wb w))); auto using h1_group_pos, h1_group_blk, h1_in.
    intros m k Hk. destruct m; cbn [args1]; [|reflexivity]. apply IH; auto. rewrite Hk; auto.
  - intros o e1 IH1 e2 IH2 (Ho & H1 & H2) i Hi. apply (from_group_loc _ (block_lanes (wb w))); auto using h2_group_pos, h2_group_blk, h2_in.
    intros m k Hk. destruct m as [|[|m]]; cbn [args2]; [apply IH1|apply IH2|reflexivity]; auto; rewrite Hk; auto.
  - intros o e1 IH1 e2 IH2 (_ & H1 & H2) i Hi. rewrite IH1, IH2; auto.
  - intros o m1 IH1 m2 IH2 (H1 & H2) i Hi. rewrite IH1, IH2; auto.
  - intros m IH HF i Hi. rewrite IH; auto.
Qed.
Lemma s_val_ext w e f g i : s_fine w e -> (forall k j, f k j = g k j) -> s_val (wb w) e f i = s_val (wb w) e g i.
Proof.
  intros HF Hfg. rewrite <- (Nat.add_0_r i) at 1. apply (proj1 (s_val_loc w 0 (Z.of_nat i / block_lanes (wb w)) f g (Z.divide_0_r _)
    ltac:(intros; rewrite Nat.add_0_r; apply Hfg))); auto.
Qed.

(** C38: two configurations, the same input lanes: the same output lanes. *)
Theorem shuffle_programs_are_portable : forall A A' w T e env env', valid_arch A = true -> valid_arch A' = true -> vsize T -> s_fine w e ->
  (forall k, typed A (wb w) T (env k)) -> (forall k, typed A' (wb w) T (env' k)) ->
  (forall k, tlanes A (wb w) T (env k) = tlanes A' (wb w) T (env' k)) ->
  exists vr vr', run_sprogram A w T e env = Ok vr /\ run_sprogram A' w T e env' = Ok vr' /\
    tlanes A (wb w) T vr = tlanes A' (wb w) T vr'.
Proof.
  intros A A' w T e env env' HV HV' HT HF He He' HE.
  destruct (shuffle_program_spec A w T e env HV HT HF He) as (vr & E & _ & L).
  destruct (shuffle_program_spec A' w T e env' HV' HT HF He') as (vr' & E' & _ & L').
  exists vr, vr'. split; auto. split; auto. rewrite L, L'. apply map_ext. intros i.
  apply s_val_ext; auto. intros k j. rewrite HE. reflexivity.
Qed.

(** C37: the halves of a vector do not interact, rearrangements included. *)
Theorem shuffle_programs_split : forall A w T e env env1 env2, valid_arch A = true -> vsize T -> s_fine w e ->
  (forall k, typed A (wb w) (2 * T) (env k)) -> (forall k, typed A (wb w) T (env1 k)) -> (forall k, typed A (wb w) T (env2 k)) ->
  (forall k, tlanes A (wb w) (2 * T) (env k) = tlanes A (wb w) T (env1 k) ++ tlanes A (wb w) T (env2 k)) ->
  exists vr v1 v2, run_sprogram A w (2 * T) e env = Ok vr /\ run_sprogram A w T e env1 = Ok v1 /\ run_sprogram A w T e env2 = Ok v2 /\
    tlanes A (wb w) (2 * T) vr = tlanes A (wb w) T v1 ++ tlanes A (wb w) T v2.
Proof.
  intros A w T e env env1 env2 HV HT HF He He1 He2 HE.
  assert (vsize (2 * T)) as HT2 by (destruct HT as [k ->]; exists (S k); rewrite Nat2Z.inj_succ, Z.pow_succ_r by lia; ring).
  destruct (shuffle_program_spec A w (2 * T) e env HV HT2 HF He) as (vr & E & _ & L).
  destruct (shuffle_program_spec A w T e env1 HV HT HF He1) as (v1 & E1 & _ & L1).
  destruct (shuffle_program_spec A w T e env2 HV HT HF He2) as (v2 & E2 & _ & L2).
  exists vr, v1, v2. split; auto. split; auto. split; auto. rewrite L, L1, L2.
  assert (0 < block_lanes (wb w)) as Hq by (destruct w; reflexivity).
  assert (exists p, 0 <= p /\ T = p * block_lanes (wb w) * wb w) as (p & Hp0 & Ep).
  { destruct HT as [k ->]. exists (2 ^ Z.of_nat k). split; [apply Z.pow_nonneg; lia|].
    replace 128 with (block_lanes (wb w) * wb w) by (destruct w; reflexivity). ring. }
  assert (0 < wb w) as Hw by (destruct w; reflexivity).
  assert (T / wb w = p * block_lanes (wb w)) as EN by (rewrite Ep; apply Z.div_mul; lia).
  assert (Z.to_nat (2 * T / wb w) = Z.to_nat (T / wb w) + Z.to_nat (T / wb w))%nat as ->.
  { rewrite <- Z2Nat.inj_add by (rewrite EN; apply Z.mul_nonneg_nonneg; lia). f_equal. rewrite EN, Ep.
    replace (2 * (p * block_lanes (wb w) * wb w)) with (2 * (p * block_lanes (wb w)) * wb w) by ring. rewrite Z.div_mul by lia. ring. }
  assert (block_lanes (wb w) | Z.of_nat (Z.to_nat (T / wb w))) as HD.
  { rewrite Z2Nat.id by (rewrite EN; apply Z.mul_nonneg_nonneg; lia). exists p. exact EN. }
  set (n := Z.to_nat (T / wb w)) in *.
  assert (forall k, length (tlanes A (wb w) T (env1 k)) = n) as Hn.
  { intros k. destruct (shuffle_program_spec A w T (SVar k) env1 HV HT I He1) as (v & Ev & _ & Lv). injection Ev as <-. rewrite Lv, map_length, seq_length. reflexivity. }
  rewrite seq_app, map_app. cbn [Nat.add]. rewrite (seq_shift_map _ n).
  f_equal; apply map_ext_in; intros i Hi; apply in_seq in Hi.
  - set (f := fun (k j : nat) => nth j (tlanes A (wb w) (2 * T) (env k)) 0). set (g := fun (k j : nat) => nth j (tlanes A (wb w) T (env1 k)) 0).
    assert (forall k j, Z.of_nat j / block_lanes (wb w) = Z.of_nat i / block_lanes (wb w) -> f k (j + 0)%nat = g k j) as Hfg.
    { intros k j Hj. unfold f, g. rewrite Nat.add_0_r, HE. apply app_nth1. rewrite Hn.
      destruct HD as [c Ec]. apply Nat2Z.inj_lt. rewrite Ec.
      assert (Z.of_nat i / block_lanes (wb w) < c) by (apply Z.div_lt_upper_bound; lia).
      pose proof (Z.mod_pos_bound (Z.of_nat j) (block_lanes (wb w)) Hq). pose proof (Z.div_mod (Z.of_nat j) (block_lanes (wb w)) ltac:(lia)). nia. }
    rewrite <- (Nat.add_0_r i) at 1. apply (proj1 (s_val_loc w 0 _ f g (Z.divide_0_r _) Hfg)); auto.
  - set (f := fun (k j : nat) => nth j (tlanes A (wb w) (2 * T) (env k)) 0). set (g := fun (k j : nat) => nth j (tlanes A (wb w) T (env2 k)) 0).
    assert (forall k j, Z.of_nat j / block_lanes (wb w) = Z.of_nat i / block_lanes (wb w) -> f k (j + n)%nat = g k j) as Hfg.
    { intros k j Hj. unfold f, g. rewrite HE, app_nth2 by (rewrite Hn; lia). rewrite Hn. f_equal. lia. }
    rewrite Nat.add_comm. apply (proj1 (s_val_loc w n _ f g HD Hfg)); auto.
Qed.

(** 4x4 butterflies: the sum of every lane with its mirror image in the block, kept where it
    does not exceed the splat of lane 2, run by SSE2, NEON, AVX2 and the null backend. *)
Definition sprog_ex : sexp :=
  SBlend (SBin BAdd (SVar 0) (SSh1 (HPermute4 3 2 1 0) (SVar 0))) (SSh2 (HAlign 1) (SVar 1) (SVar 0))
         (SMNot (SCmp (CLt false) (SSh1 (HSplat 2) (SVar 0)) (SSh2 HZipLo (SVar 1) (SVar 0)))).
Example sprog_ex_fine : s_fine W32 sprog_ex.
Proof. unfold sprog_ex. cbn [s_fine sm_fine h1_fine h2_fine b_fine c_fine]. repeat split; auto; try discriminate; try (cbn; lia). Qed.
Definition sprog_env (k : nat) : vec := match k with O => [0x00000004000000030000000200000001; 0x00000040000000300000002000000010] | _ => [0x00000008000000010000000900000003; 7] end.
Example sprog_ex_runs :
  run_sprogram arch_sse2 W32 256 sprog_ex sprog_env = run_sprogram arch_null W32 256 sprog_ex sprog_env /\
  run_sprogram arch_neon32 W32 256 sprog_ex sprog_env = run_sprogram arch_null W32 256 sprog_ex sprog_env /\
  exists x y, run_sprogram arch_null W32 256 sprog_ex sprog_env = Ok [x; y] /\
    run_sprogram arch_avx2 W32 256 sprog_ex (fun k => match sprog_env k with [a; b] => [a + 2 ^ 128 * b] | v => v end) = Ok [x + 2 ^ 128 * y] /\
    elems 32 4 x = [5; 5; 8; 5] /\ elems 32 4 y = [80; 80; 80; 80].
Proof.
  split; [vm_compute; reflexivity|]. split; [vm_compute; reflexivity|].
  eexists _, _. split; [vm_compute; reflexivity|]. split; [vm_compute; reflexivity|]. split; vm_compute; reflexivity.
Qed.
(** absolute values, high products and counts of 16-bit lanes *)
Definition sprog_ex16 : sexp := SBin BSub (SMulHi true (SX1 XAbs (SVar 0)) (SX1 XNeg (SSh2 HUnzipHi (SVar 1) (SVar 0)))) (SX1 XPopcnt (SSh1 (HMoveR 3) (SVar 1))).
Example sprog_ex16_runs : s_fine W16 sprog_ex16 /\
  exists r, run_sprogram arch_null W16 128 sprog_ex16 (fun k => [0x8000fffe12347000abcd00017fff0003 + Z.of_nat k * 2 ^ 100]) = Ok r /\
    run_sprogram arch_sse2 W16 128 sprog_ex16 (fun k => [0x8000fffe12347000abcd00017fff0003 + Z.of_nat k * 2 ^ 100]) = Ok r /\
    run_sprogram arch_neon64 W16 128 sprog_ex16 (fun k => [0x8000fffe12347000abcd00017fff0003 + Z.of_nat k * 2 ^ 100]) = Ok r /\
    lanes 16 R128 r = [65534; 10777; 65535; 10775; 51185; 1531; 65525; 16381].
Proof.
  split; [unfold sprog_ex16; cbn [s_fine h1_fine h2_fine b_fine x1_fine]; repeat split; auto; try discriminate; cbn; lia|].
  eexists. split; [vm_compute; reflexivity|]. split; [vm_compute; reflexivity|]. split; vm_compute; reflexivity.
Qed.
