(** reduce_add: sums of lanes modulo a power of two. *)
From Verif Require Import Spec.Reduce Model.ReduceAdd Proof.CppLemmas Proof.BitwiseP Proof.ArithP Proof.ShiftP Proof.SetSplatP Proof.CmpP
  Proof.MinMaxP Proof.MoveP Proof.ExtractP2 Proof.SplitP Proof.MakeConstP Proof.LoadStoreP4 Proof.PopcntP Proof.PopcntP3 Proof.ReduceP.

(** ---------- finite sums ---------- *)
Definition sumn (n : nat) (f : Z -> Z) : Z := total (map (fun i => f (Z.of_nat i)) (seq 0 n)).
Lemma total_app l m : total (l ++ m) = total l + total m.
Proof. unfold total. induction l as [|x l IH]; cbn [app fold_right]; [reflexivity|]. rewrite IH. lia. Qed.
Lemma sumn_S n f : sumn (S n) f = sumn n f + f (Z.of_nat n).
Proof. unfold sumn. rewrite seq_S, map_app, total_app. cbn. lia. Qed.
Lemma sumn_app n k f : sumn (n + k) f = sumn n f + sumn k (fun i => f (Z.of_nat n + i)).
Proof.
  induction k as [|k IH]; [rewrite Nat.add_0_r; unfold sumn at 3; cbn; lia|].
  rewrite Nat.add_succ_r, !sumn_S, IH. rewrite Nat2Z.inj_add. lia.
Qed.
Lemma sumn_group k n f : sumn (n * k) f = sumn n (fun i => sumn k (fun j => f (Z.of_nat k * i + j))).
Proof.
  induction n as [|n IH]; [reflexivity|]. replace (S n * k)%nat with (n * k + k)%nat by lia. rewrite sumn_app, IH, sumn_S. f_equal.
  unfold sumn. f_equal. apply map_ext. intros i. f_equal. lia.
Qed.
Lemma sumn_ext n f g : (forall i, 0 <= i < Z.of_nat n -> f i = g i) -> sumn n f = sumn n g.
Proof. intros H. unfold sumn. f_equal. apply map_ext_in. intros i Hi. apply in_seq in Hi. apply H. lia. Qed.
Lemma sumn_add n f g : sumn n (fun i => f i + g i) = sumn n f + sumn n g.
Proof. induction n as [|n IH]; [reflexivity|]. rewrite !sumn_S, IH. lia. Qed.
Lemma sumn_zero n f : (forall i, 0 <= i < Z.of_nat n -> f i = 0) -> sumn n f = 0.
Proof. induction n as [|n IH]; intros H; [reflexivity|]. rewrite sumn_S, IH, H by (intros; try apply H; lia). reflexivity. Qed.
Lemma sumn_const n f c : (forall i, 0 <= i < Z.of_nat n -> f i = c) -> sumn n f = c * Z.of_nat n.
Proof. induction n as [|n IH]; intros H; [cbn; lia|]. rewrite sumn_S, IH, H by (intros; try apply H; lia). lia. Qed.
Lemma sumn_range n f lo hi : (forall i, 0 <= i < Z.of_nat n -> lo <= f i <= hi) -> lo * Z.of_nat n <= sumn n f <= hi * Z.of_nat n.
Proof.
  induction n as [|n IH]; intros H; [cbn; lia|]. rewrite sumn_S. specialize (IH ltac:(intros; apply H; lia)).
  pose proof (H (Z.of_nat n) ltac:(lia)). lia.
Qed.
(** congruence modulo 2^W *)
Definition cg (W x y : Z) : Prop := wrap W x = wrap W y.
Lemma cg_refl W x : cg W x x. Proof. reflexivity. Qed.
Lemma cg_trans W x y z : cg W x y -> cg W y z -> cg W x z. Proof. unfold cg. congruence. Qed.
Lemma cg_sym W x y : cg W x y -> cg W y x. Proof. unfold cg. congruence. Qed.
Lemma cg_add W x y z t : 0 <= W -> cg W x y -> cg W z t -> cg W (x + z) (y + t).
Proof. unfold cg, wrap. intros H H1 H2. rewrite (Z.add_mod x), (Z.add_mod y), H1, H2 by (apply Z.pow_nonzero; lia). reflexivity. Qed.
Lemma cg_sum W n f g : 0 <= W -> (forall i, 0 <= i < Z.of_nat n -> cg W (f i) (g i)) -> cg W (sumn n f) (sumn n g).
Proof.
  intros HW. induction n as [|n IH]; intros H; [reflexivity|]. rewrite !sumn_S. apply cg_add; auto; [apply IH; intros|]; apply H; lia.
Qed.
Lemma cg_low W W' x y : 0 <= W <= W' -> cg W' x y -> cg W x y.
Proof.
  unfold cg. intros H E. assert (HH : forall z, wrap W z = wrap W (wrap W' z)).
  { intros z. apply (bits_ext W); [lia|apply wrap_range; lia|apply wrap_range; lia|]. intros k Hk. rewrite !testbit_wrap by lia.
    replace (k <? W') with true by (symmetry; apply Z.ltb_lt; lia). reflexivity. }
  rewrite (HH x), (HH y), E. reflexivity.
Qed.
Lemma cg_wrap W W' x : 0 <= W <= W' -> cg W (wrap W' x) x.
Proof. intros H. apply (cg_low W W'); auto. unfold cg. apply wrap_wrap. Qed.
Lemma cg_sgn W W' x : 0 < W <= W' -> cg W (sgn W' x) x.
Proof. intros H. apply (cg_low W W'); [lia|]. unfold cg. apply wrap_sgn. lia. Qed.
Lemma cg_cconv W (t : cty) x : 0 < W <= snd t -> cg W (cconv t x) x.
Proof. intros H. unfold cconv. destruct (fst t); [apply cg_sgn|apply cg_wrap]; lia. Qed.
Lemma cg_value W w sg x : 0 < W <= w -> cg W (value sg w x) x.
Proof. intros H. unfold value. destruct sg; [apply cg_sgn; auto|apply cg_refl]. Qed.
Lemma cconv_cg (t : cty) x y : 0 < snd t -> cg (snd t) x y -> cconv t x = cconv t y.
Proof. unfold cg, cconv. intros H E. destruct (fst t); auto. rewrite <- (sgn_wrap _ x), <- (sgn_wrap _ y) by auto. congruence. Qed.

(** ---------- sums of lanes ---------- *)
Definition lsum (sg : bool) (w : Z) (n : nat) (a : Z) : Z := sumn n (fun i => value sg w (lane w i a)).
Lemma lsum_elems sg w n a : lsum sg w n a = total (map (value sg w) (elems w n a)).
Proof. unfold lsum, sumn, elems. rewrite map_map. reflexivity. Qed.
Lemma vlane_value sg w i a : vlane sg w i a = value sg w (lane w i a).
Proof. reflexivity. Qed.
Lemma zr_sum k f : total (map f (zrange k)) = sumn (Z.to_nat k) f.
Proof. unfold zrange, sumn. rewrite map_map. reflexivity. Qed.
(** wider lanes holding, modulo 2^W, the sums of k narrower ones *)
Lemma lsum_wide W sg sg' w k R a f : 0 < k -> 0 < W <= k * w -> wok w R = true -> wok (k * w) R = true ->
  (forall i, 0 <= i < R / (k * w) -> cg W (f i) (sumn (Z.to_nat k) (fun j => value sg w (lane w (k * i + j) a)))) ->
  cg W (lsum sg' (k * w) (nl (k * w) R) (pack (k * w) R f)) (lsum sg w (nl w R) a).
Proof.
  intros Hk HW H1 H2 H. destruct (wok_spec _ _ H1) as (P1 & _ & E1 & N1). destruct (wok_spec _ _ H2) as (P2 & _ & E2 & N2).
  assert (E : nl w R = (nl (k * w) R * Z.to_nat k)%nat).
  { apply Nat2Z.inj. rewrite Nat2Z.inj_mul, Z2Nat.id, N1, N2 by lia. apply (Z.mul_reg_l _ _ w); [lia|]. rewrite <- E1. rewrite E2 at 1. lia. }
  unfold lsum. rewrite E, sumn_group. apply cg_sum; [lia|]. intros i Hi. rewrite N2 in Hi. rewrite lane_pack by auto.
  eapply cg_trans; [apply cg_value; auto|]. eapply cg_trans; [apply cg_wrap; lia|]. rewrite Z2Nat.id by lia. apply H; auto.
Qed.
Lemma lsum_add W sg w R a b : 0 < W <= w -> wok w R = true -> cg W (lsum sg w (nl w R) (v2 w R Z.add a b)) (lsum sg w (nl w R) a + lsum sg w (nl w R) b).
Proof.
  intros HW H. destruct (wok_spec _ _ H) as (P & _ & _ & N). unfold lsum. rewrite <- sumn_add. apply cg_sum; [lia|]. intros i Hi. rewrite N in Hi.
  rewrite lane_v2 by auto. eapply cg_trans; [apply cg_value; auto|]. eapply cg_trans; [apply cg_wrap; lia|].
  apply cg_add; [lia| |]; apply cg_sym, cg_value; auto.
Qed.
Lemma lsum_0 sg w n : 0 < w -> lsum sg w n 0 = 0.
Proof.
  intros. apply sumn_zero. intros. rewrite lane_of_zero. unfold value. destruct sg; auto. apply sgn_id; auto.
  pose proof (pow2_pos (w - 1)). lia.
Qed.
(** the low W bits of the 64-bit lanes *)
Definition phi (W R r : Z) : Z := sumn (nl 64 R) (fun i => lane W (64 / W * i) r).
Lemma lane_low W i r : 0 < W -> W * (64 / W) = 64 -> 0 <= i -> lane W (64 / W * i) r = wrap W (lane 64 i r).
Proof.
  intros HW E Hi. rewrite <- (lane_0 W (lane 64 i r)) by lia. remember (64 / W) as q. rewrite <- E. rewrite lane_lane by nia. f_equal. lia.
Qed.
Lemma phi_pack W sg w k R a f : 0 < W <= 64 -> W * (64 / W) = 64 -> 0 < k -> k * w = 64 -> wok w R = true -> wok 64 R = true ->
  (forall i, 0 <= i < R / 64 -> cg W (f i) (sumn (Z.to_nat k) (fun j => value sg w (lane w (k * i + j) a)))) ->
  cg W (phi W R (pack 64 R f)) (lsum sg w (nl w R) a).
Proof.
  intros HW EW Hk E64 H1 H2 H. destruct (wok_spec _ _ H1) as (P1 & _ & E1 & N1). destruct (wok_spec _ _ H2) as (P2 & _ & E2 & N2).
  assert (E : nl w R = (nl 64 R * Z.to_nat k)%nat).
  { apply Nat2Z.inj. rewrite Nat2Z.inj_mul, Z2Nat.id, N1, N2 by lia. apply (Z.mul_reg_l _ _ w); [lia|]. rewrite <- E1. rewrite E2 at 1. remember (R / 64) as q. rewrite <- E64. ring. }
  unfold phi, lsum. rewrite E, sumn_group. apply cg_sum; [lia|]. intros i Hi. rewrite N2 in Hi. rewrite lane_low, lane_pack by (auto; lia).
  eapply cg_trans; [apply cg_wrap; lia|]. eapply cg_trans; [apply cg_wrap; lia|]. rewrite Z2Nat.id by lia. apply H; auto.
Qed.
Lemma phi_add W R a b : 0 < W <= 64 -> W * (64 / W) = 64 -> wok W R = true -> wok 64 R = true ->
  cg W (phi W R (v2 W R Z.add a b)) (phi W R a + phi W R b).
Proof.
  intros HW EW H1 H2. destruct (wok_spec _ _ H1) as (P1 & _ & E1 & N1). destruct (wok_spec _ _ H2) as (P2 & _ & E2 & N2).
  unfold phi. rewrite <- sumn_add. apply cg_sum; [lia|]. intros i Hi. rewrite N2 in Hi. assert (0 < 64 / W) by nia.
  rewrite lane_v2.
  - apply cg_wrap. lia.
  - auto.
  - split; [nia|]. apply Z.mul_lt_mono_pos_l with (p := W); [lia|]. rewrite <- E1. rewrite Z.mul_assoc, EW. lia.
Qed.
Lemma phi_0 W R : phi W R 0 = 0.
Proof. apply sumn_zero. intros. apply lane_of_zero. Qed.

Definition yields (W : Z) (m : res Z) (T : Z) : Prop := exists x, m = Ok x /\ cg W x T.
Lemma yields_cg W m T T' : yields W m T -> cg W T T' -> yields W m T'.
Proof. intros (x & E & H) H'. exists x. split; [exact E|]. eapply cg_trans; eauto. Qed.
Section F.
  Variables (A : arch) (fp : Z).
  Hypotheses (HV : valid_arch A = true) (Hfp : fp mod 16 = 0).
  Lemma x_ok sg e id r : reg 128 r -> 0 <= id < 128 / eb e -> e <> I64 -> i_extract A fp sg e R128 id r = Ok (value sg (eb e) (lane (eb e) id r)).
  Proof. intros. apply i_extract_ok; auto; [destruct e; reflexivity|]. intros _ E. contradiction. Qed.
  Lemma lanes04_ok sg r : reg 128 r -> yields 16 (lanes04 A fp sg r) (phi 16 128 r).
  Proof.
    intros Hr. unfold lanes04. rewrite !(x_ok sg I16) by first [exact Hr | discriminate | split; vm_compute; [discriminate|reflexivity]]. cbn [bind eb].
    eexists. split; [reflexivity|]. change (phi 16 128 r) with (lane 16 0 r + (lane 16 4 r + 0)). rewrite Z.add_0_r.
    apply cg_add; [lia| |]; apply cg_value; lia.
  Qed.
  Lemma word_step k r : reg 128 r -> 0 < k < 4 -> exists m, i_move_l A I32 R128 k r = Ok m /\ reg 128 m /\
    forall i, 0 <= i -> i + k < 4 -> lane 32 i m = lane 32 (i + k) r.
  Proof.
    intros Hr Hk. eexists. split; [apply i_move_l_ok; auto; [change (en I32) with 4; lia|apply Z.eqb_neq; lia]|]. split; [apply lsh_reg; reflexivity|].
    intros i Hi Hik. cbn [eb rbits]. change (en I32) with 4. replace i with (4 * 0 + i) at 1 by lia. rewrite lane_lsh by (try reflexivity; try lia; change (128 / (4 * 32)) with 1; lia).
    unfold p_move_l. replace (i + k <? 4) with true by (symmetry; apply Z.ltb_lt; lia). cbn [nth]. f_equal; lia.
  Qed.
  Lemma low_words_ok sg r : reg 128 r -> yields 32 (low_words A fp sg r) (phi 32 128 r).
  Proof.
    intros Hr. unfold low_words. destruct (word_step 2 r Hr ltac:(lia)) as (m & E & Hm & L). rewrite E. cbn [bind].
    rewrite i_add_ok by auto. cbn [bind wb rbits].
    rewrite (x_ok sg I32) by (first [apply v2_reg; reflexivity | discriminate | split; vm_compute; [discriminate|reflexivity]]). cbn [eb].
    eexists. split; [reflexivity|]. rewrite lane_v2 by first [reflexivity | split; vm_compute; [discriminate|reflexivity]]. rewrite L by lia.
    change (phi 32 128 r) with (lane 32 0 r + (lane 32 2 r + 0)). rewrite Z.add_0_r.
    eapply cg_trans; [apply cg_value; lia|]. apply cg_wrap; lia.
  Qed.
  Lemma all_words_ok sg sg' r : reg 128 r -> yields 32 (all_words A fp sg r) (lsum sg' 32 (nl 32 128) r).
  Proof.
    intros Hr. unfold all_words. destruct (word_step 2 r Hr ltac:(lia)) as (m & E & Hm & L). rewrite E. cbn [bind].
    rewrite i_add_ok by auto. cbn [bind wb rbits]. set (r2 := v2 32 128 Z.add r m).
    assert (H2 : reg 128 r2) by (apply v2_reg; reflexivity).
    destruct (word_step 1 r2 H2 ltac:(lia)) as (m2 & E2 & Hm2 & L2). rewrite E2. cbn [bind]. rewrite i_add_ok by auto. cbn [bind wb rbits].
    rewrite (x_ok sg I32) by (first [apply v2_reg; reflexivity | discriminate | split; vm_compute; [discriminate|reflexivity]]). cbn [eb].
    eexists. split; [reflexivity|]. rewrite lane_v2 by first [reflexivity | split; vm_compute; [discriminate|reflexivity]]. rewrite L2 by lia.
    unfold r2. rewrite !lane_v2 by first [reflexivity | split; vm_compute; [discriminate|reflexivity]]. rewrite !L by lia.
    change (lsum sg' 32 (nl 32 128) r) with (value sg' 32 (lane 32 0 r) + (value sg' 32 (lane 32 1 r) + (value sg' 32 (lane 32 2 r) + (value sg' 32 (lane 32 3 r) + 0)))).
    change (0 + 2) with 2. change (0 + 1) with 1. change (1 + 2) with 3.
    eapply cg_trans; [apply cg_value; lia|]. eapply cg_trans; [apply cg_wrap; lia|].
    replace (value sg' 32 (lane 32 0 r) + (value sg' 32 (lane 32 1 r) + (value sg' 32 (lane 32 2 r) + (value sg' 32 (lane 32 3 r) + 0))))
      with ((value sg' 32 (lane 32 0 r) + value sg' 32 (lane 32 2 r)) + (value sg' 32 (lane 32 1 r) + value sg' 32 (lane 32 3 r))) by lia.
    apply cg_add; [lia| |]; (eapply cg_trans; [apply cg_wrap; lia|]; apply cg_add; [lia| |]; apply cg_sym, cg_value; lia).
  Qed.
  (** loops over the registers *)
  Lemma gather_ok W R psi T h : 0 <= W -> (forall a r, reg R a -> reg R r -> exists r', h a r = Ok r' /\ reg R r' /\ cg W (psi r') (psi r + T a)) ->
    forall va r, Forall (reg R) va -> reg R r -> exists r', gather h r va = Ok r' /\ reg R r' /\ cg W (psi r') (psi r + total (map T va)).
  Proof.
    intros HW Hh. induction va as [|a va IH]; intros r Hva Hr; cbn [gather map total fold_right].
    - exists r. rewrite Z.add_0_r. split; [reflexivity|]. split; [exact Hr|apply cg_refl].
    - inversion Hva; subst. destruct (Hh a r) as (r1 & E & Hr1 & C); auto. rewrite E. cbn [bind].
      destruct (IH r1) as (r2 & E2 & Hr2 & C2); auto. exists r2. split; [exact E2|]. split; [exact Hr2|].
      eapply cg_trans; [exact C2|]. fold (total (map T va)). rewrite Z.add_assoc. apply cg_add; auto. apply cg_refl.
  Qed.
  Lemma adding_ok w s W psi T h : 0 <= W -> avail_int A (wb w) s = true ->
    (forall r x, cg W (psi (v2 (wb w) (rbits s) Z.add r x)) (psi r + psi x)) ->
    (forall a, reg (rbits s) a -> exists x, h a = Ok x /\ cg W (psi x) (T a)) ->
    forall a r, reg (rbits s) a -> reg (rbits s) r -> exists r', adding A w s h a r = Ok r' /\ reg (rbits s) r' /\ cg W (psi r') (psi r + T a).
  Proof.
    intros HW HA Hadd Hh a r Ha Hr. unfold adding. destruct (Hh a Ha) as (x & E & C). rewrite E. cbn [bind]. rewrite i_add_ok by auto.
    eexists. split; [reflexivity|]. split; [apply v2_reg; destruct w, s; reflexivity|]. eapply cg_trans; [apply Hadd|]. apply cg_add; auto. apply cg_refl.
  Qed.
  Lemma total_lanes sg w s va : total (map (fun a => lsum sg w (nl w (rbits s)) a) va) = total (map (value sg w) (lanes w s va)).
  Proof. induction va as [|a va IH]; [reflexivity|]. rewrite lanes_cons, map_app, total_app, <- IH, <- lsum_elems. reflexivity. Qed.

  (** the pairwise and quadwise sums *)
  Lemma addl_ok W sg sg' w k R a : 0 < k -> 0 < W <= k * w -> wok w R = true -> wok (k * w) R = true ->
    cg W (lsum sg' (k * w) (nl (k * w) R) (addl sg w k R a)) (lsum sg w (nl w R) a).
  Proof. intros. apply lsum_wide; auto. intros i Hi. fold (total (map (fun j => vlane sg w (k * i + j) a) (zrange k))). rewrite zr_sum. apply cg_refl. Qed.
  Lemma addl_phi W sg w k R a : 0 < W <= 64 -> W * (64 / W) = 64 -> 0 < k -> k * w = 64 -> wok w R = true -> wok 64 R = true ->
    cg W (phi W R (addl sg w k R a)) (lsum sg w (nl w R) a).
  Proof.
    intros HW EW Hk E H1 H2. unfold addl. rewrite E. apply phi_pack with (k := k); auto. intros i Hi.
    fold (total (map (fun j => vlane sg w (k * i + j) a) (zrange k))). rewrite zr_sum. apply cg_refl.
  Qed.
  Lemma hadd_ok W sg sg' w a : 0 < W <= 2 * w -> wok w 128 = true -> wok (2 * w) 128 = true ->
    cg W (lsum sg' (2 * w) (nl (2 * w) 128) (msa_hadd sg w a a)) (lsum sg w (nl w 128) a).
  Proof.
    intros. apply lsum_wide; auto; [lia|]. intros i Hi.
    change (sumn (Z.to_nat 2) (fun j => value sg w (lane w (2 * i + j) a))) with (value sg w (lane w (2 * i + 0) a) + (value sg w (lane w (2 * i + 1) a) + 0)).
    rewrite Z.add_0_r, (Z.add_comm (vlane _ _ _ _)), Z.add_0_r. apply cg_refl.
  Qed.
  Lemma lsum_phi W sg r : 0 < W <= 64 -> W * (64 / W) = 64 -> cg W (phi W 128 r) (lsum sg 64 (nl 64 128) r).
  Proof.
    intros HW EW. apply cg_sum; [lia|]. intros i Hi. rewrite lane_low by lia. eapply cg_trans; [apply cg_wrap; lia|]. apply cg_sym, cg_value. lia.
  Qed.
  Lemma neon_fin16_ok W sg r : 0 < W <= 32 -> yields W (neon_fin16 sg r) (lsum sg 32 (nl 32 128) r).
  Proof.
    intros HW. eexists. split; [reflexivity|]. set (a3 := addl sg 32 2 128 r). apply (cg_low W 32); [lia|].
    eapply cg_trans; [apply cg_cconv; cbn; lia|]. replace (lane 32 0 a3 + lane 32 2 a3) with (phi 32 128 a3) by (change (phi 32 128 a3) with (lane 32 0 a3 + (lane 32 2 a3 + 0)); lia).
    eapply cg_trans; [apply (lsum_phi 32 sg); [lia|reflexivity]|]. apply (addl_ok 32 sg sg 32 2 128); first [lia | reflexivity].
  Qed.
  Lemma neon_fin8_ok W sg r : 0 < W <= 32 -> yields W (neon_fin8 sg r) (lsum sg 16 (nl 16 128) r).
  Proof.
    intros HW. destruct (neon_fin16_ok W sg (addl sg 16 2 128 r) HW) as (x & E & C). exists x. split; [exact E|].
    eapply cg_trans; [exact C|]. apply (addl_ok W sg sg 16 2 128); first [lia | reflexivity].
  Qed.
  Lemma msa_fin16_ok W sg r : 0 < W <= 32 -> yields W (msa_fin16 A fp sg r) (lsum sg 32 (nl 32 128) r).
  Proof.
    intros HW. unfold msa_fin16. destruct (low_words_ok sg (msa_hadd sg 32 r r)) as (x & E & C); [apply pack_reg; reflexivity|].
    exists x. split; [exact E|]. apply (cg_low W 32); [lia|]. eapply cg_trans; [exact C|].
    eapply cg_trans; [apply (lsum_phi 32 sg); [lia|reflexivity]|]. apply (hadd_ok 32 sg sg 32); first [lia | reflexivity].
  Qed.
  Lemma msa_fin8_ok W sg r : 0 < W <= 32 -> yields W (msa_fin8 A fp sg r) (lsum sg 16 (nl 16 128) r).
  Proof.
    intros HW. destruct (msa_fin16_ok W sg (msa_hadd sg 16 r r) HW) as (x & E & C). exists x. split; [exact E|].
    eapply cg_trans; [exact C|]. apply (hadd_ok W sg sg 16); first [lia | reflexivity].
  Qed.
  Lemma sad_phi R a : wok 8 R = true -> wok 64 R = true -> cg 16 (phi 16 R (mm_sad_epu8 R a 0)) (lsum false 8 (nl 8 R) a).
  Proof.
    intros H1 H2. apply phi_pack with (k := 8); auto; try reflexivity; try lia. intros i Hi.
    match goal with |- cg _ (fold_right Z.add 0 (map ?g (zrange 8))) _ => fold (total (map g (zrange 8))) end. rewrite zr_sum.
    apply cg_sum; [lia|]. intros j Hj. rewrite lane_of_zero, Z.sub_0_r, Z.abs_eq; [apply cg_refl|]. apply lane_range. lia.
  Qed.
  Lemma sad_64 R a : wok 8 R = true -> wok 64 R = true -> cg 64 (lsum false 64 (nl 64 R) (mm_sad_epu8 R a 0)) (lsum false 8 (nl 8 R) a).
  Proof.
    intros H1 H2. apply (lsum_wide 64 false false 8 8 R a); auto; try lia. intros i Hi.
    match goal with |- cg _ (fold_right Z.add 0 (map ?g (zrange 8))) _ => fold (total (map g (zrange 8))) end. rewrite zr_sum.
    apply cg_sum; [lia|]. intros j Hj. rewrite lane_of_zero, Z.sub_0_r, Z.abs_eq; [apply cg_refl|]. apply lane_range. lia.
  Qed.
  (** flipping the top bit *)
  Lemma flipv_sum w s a : lsum (negb false) (wb w) (nl (wb w) (rbits s)) (flipv (wb w) (rbits s) a) = lsum false (wb w) (nl (wb w) (rbits s)) a - 2 ^ (wb w - 1) * (rbits s / wb w).
  Proof.
    assert (HW : wok (wb w) (rbits s) = true) by (destruct w, s; reflexivity). destruct (wok_spec _ _ HW) as (P & _ & _ & N).
    unfold lsum. rewrite (sumn_ext _ _ (fun i => value false (wb w) (lane (wb w) i a) + - 2 ^ (wb w - 1))).
    - rewrite sumn_add, (sumn_const _ (fun _ => - 2 ^ (wb w - 1)) (- 2 ^ (wb w - 1))) by reflexivity. rewrite N. lia.
    - intros i Hi. rewrite N in Hi. rewrite lane_flipv by auto. unfold value. cbn [negb]. rewrite sgn_flip; [lia|lia|apply lane_range; lia].
  Qed.
  Lemma flipv_sum_s w s a : lsum false (wb w) (nl (wb w) (rbits s)) (flipv (wb w) (rbits s) a) = lsum true (wb w) (nl (wb w) (rbits s)) a + 2 ^ (wb w - 1) * (rbits s / wb w).
  Proof.
    assert (HW : wok (wb w) (rbits s) = true) by (destruct w, s; reflexivity). destruct (wok_spec _ _ HW) as (P & _ & _ & N).
    unfold lsum. rewrite (sumn_ext _ _ (fun i => value true (wb w) (lane (wb w) i a) + 2 ^ (wb w - 1))).
    - rewrite sumn_add, (sumn_const _ (fun _ => 2 ^ (wb w - 1)) (2 ^ (wb w - 1))) by reflexivity. rewrite N. lia.
    - intros i Hi. rewrite N in Hi. rewrite lane_flipv by auto. unfold value. rewrite flip_sgn; [lia|lia|apply lane_range; lia].
  Qed.
  Lemma flip_any w s a : avail_int A (wb w) s = true -> reg (rbits s) a -> flip A w s a = Ok (flipv (wb w) (rbits s) a).
  Proof.
    intros HA Ha. unfold flip. rewrite konst_ok by auto. cbn [bind]. rewrite i_bit_xor_ok by (auto; apply splat_reg; destruct w, s; reflexivity). reflexivity.
  Qed.
  Lemma madd_ones sg R a : wok 16 R = true -> wok 32 R = true -> cg 32 (lsum sg 32 (nl 32 R) (mm_madd_epi16 R a (splat 16 R 1))) (lsum true 16 (nl 16 R) a).
  Proof.
    intros H1 H2. destruct (wok_spec _ _ H1) as (_ & _ & E1 & _). destruct (wok_spec _ _ H2) as (_ & _ & E2 & _).
    apply (lsum_wide 32 true sg 16 2 R a); auto; try lia. intros i Hi. change (2 * 16) with 32 in Hi. rewrite !lane_splat by (auto; lia).
    change (sgn 16 (wrap 16 1)) with 1.
    change (sumn (Z.to_nat 2) (fun j => value true 16 (lane 16 (2 * i + j) a))) with (sgn 16 (lane 16 (2 * i + 0) a) + (sgn 16 (lane 16 (2 * i + 1) a) + 0)).
    rewrite !Z.mul_1_r, !Z.add_0_r. apply cg_refl.
  Qed.
End F.
