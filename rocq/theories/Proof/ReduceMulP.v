(** reduce_mul: products of lanes modulo 2^32. *)
From Verif Require Import Spec.Reduce Model.ReduceMul Proof.CppLemmas Proof.BitwiseP Proof.ArithP Proof.ShiftP Proof.MakeConstP Proof.MoveP Proof.UnzipP Proof.ConvertP Proof.MulP Proof.MulP4 Proof.MulP5 Proof.ExtractP Proof.ExtractP2
  Proof.LoadStoreP Proof.PopcntP Proof.ReduceP Proof.ReduceP3 Proof.ReduceP5 Proof.ReduceP6.

Definition prodn (n : nat) (f : Z -> Z) : Z := product (map (fun i => f (Z.of_nat i)) (seq 0 n)).
Lemma product_app l m : product (l ++ m) = product l * product m.
Proof. unfold product. induction l as [|x l IH]; cbn [app fold_right]; [lia|]. rewrite IH. lia. Qed.
Lemma prodn_S n f : prodn (S n) f = prodn n f * f (Z.of_nat n).
Proof. unfold prodn. rewrite seq_S, map_app, product_app. cbn. lia. Qed.
Lemma prodn_app n k f : prodn (n + k) f = prodn n f * prodn k (fun i => f (Z.of_nat n + i)).
Proof.
  induction k as [|k IH]; [rewrite Nat.add_0_r; unfold prodn at 3; cbn; lia|].
  rewrite Nat.add_succ_r, !prodn_S, IH. rewrite Nat2Z.inj_add. lia.
Qed.
Lemma prodn_group k n f : prodn (n * k) f = prodn n (fun i => prodn k (fun j => f (Z.of_nat k * i + j))).
Proof.
  induction n as [|n IH]; [reflexivity|]. replace (S n * k)%nat with (n * k + k)%nat by lia. rewrite prodn_app, IH, prodn_S. f_equal.
  unfold prodn. f_equal. apply map_ext. intros i. f_equal. lia.
Qed.
Lemma prodn_mul n f g : prodn n (fun i => f i * g i) = prodn n f * prodn n g.
Proof. induction n as [|n IH]; [reflexivity|]. rewrite !prodn_S, IH. lia. Qed.
Lemma prodn_one n f : (forall i, 0 <= i < Z.of_nat n -> f i = 1) -> prodn n f = 1.
Proof. induction n as [|n IH]; intros H; [reflexivity|]. rewrite prodn_S, IH, H by (intros; try apply H; lia). reflexivity. Qed.
Lemma cg_mul W x y z t : 0 <= W -> cg W x y -> cg W z t -> cg W (x * z) (y * t).
Proof. unfold cg. intros HW H1 H2. rewrite <- wrap_mul_l, <- wrap_mul_r, H1, H2, wrap_mul_l, wrap_mul_r by lia. reflexivity. Qed.
Lemma cg_prod W n f g : 0 <= W -> (forall i, 0 <= i < Z.of_nat n -> cg W (f i) (g i)) -> cg W (prodn n f) (prodn n g).
Proof.
  intros HW. induction n as [|n IH]; intros H; [reflexivity|]. rewrite !prodn_S. apply cg_mul; auto; [apply IH; intros|]; apply H; lia.
Qed.
Lemma prodn_ext n f g : (forall i, 0 <= i < Z.of_nat n -> f i = g i) -> prodn n f = prodn n g.
Proof. intros H. unfold prodn. f_equal. apply map_ext_in. intros i Hi. apply in_seq in Hi. apply H. lia. Qed.

(** the product of the lanes; of the low words of the 64-bit lanes *)
Definition lprod (sg : bool) (w : Z) (n : nat) (a : Z) : Z := prodn n (fun i => value sg w (lane w i a)).
Definition pphi (R r : Z) : Z := prodn (nl 64 R) (fun i => lane 32 (2 * i) r).
Lemma product_lanes sg w s va : product (map (fun a => lprod sg w (nl w (rbits s)) a) va) = product (map (value sg w) (lanes w s va)).
Proof.
  induction va as [|a va IH]; [reflexivity|]. rewrite lanes_cons, map_app, product_app, <- IH. cbn [map product fold_right]. f_equal.
  unfold lprod, prodn, elems. rewrite map_map. reflexivity.
Qed.
Lemma one_product sg w s a : lprod sg w (nl w (rbits s)) a = product (map (value sg w) (lanes w s [a])).
Proof. rewrite <- product_lanes. cbn. lia. Qed.
Lemma lane32_low i x : 0 <= i -> lane 32 (2 * i) x = wrap 32 (lane 64 i x).
Proof. intros. symmetry. apply (lane_lo 32); lia. Qed.
Lemma mul_epu_lane R a b i : wok 64 R = true -> 0 <= i < R / 64 ->
  lane 32 (2 * i) (mm_mul_epu32 R a b) = wrap 32 (lane 32 (2 * i) a * lane 32 (2 * i) b).
Proof.
  intros H Hi. rewrite !lane32_low by lia. unfold mm_mul_epu32. rewrite lane_v2 by auto.
  apply (cg_wrap 32 64). lia.
Qed.
Lemma mul_epu_phi R a b : wok 64 R = true -> cg 32 (pphi R (mm_mul_epu32 R a b)) (pphi R a * pphi R b).
Proof.
  intros H. destruct (wok_spec _ _ H) as (_ & _ & _ & N). unfold pphi. rewrite <- prodn_mul. apply cg_prod; [lia|]. intros i Hi. rewrite N in Hi.
  rewrite mul_epu_lane by auto. apply cg_wrap. lia.
Qed.
(** a product of pairs of lanes *)
Lemma lprod_pairs sg w R a r : 0 < w -> wok w R = true -> wok (2 * w) R = true ->
  (forall i, 0 <= i < R / (2 * w) -> cg 32 (r i) (value sg w (lane w (2 * i) a) * value sg w (lane w (2 * i + 1) a))) ->
  cg 32 (prodn (nl (2 * w) R) r) (lprod sg w (nl w R) a).
Proof.
  intros Hw H1 H2 H. destruct (wok_spec _ _ H1) as (_ & _ & E1 & N1). destruct (wok_spec _ _ H2) as (_ & _ & E2 & N2).
  assert (nl w R = nl (2 * w) R * 2)%nat as -> by nia. unfold lprod. rewrite prodn_group. apply cg_prod; [lia|]. intros i Hi. rewrite N2 in Hi.
  eapply cg_trans; [apply H; exact Hi|]. unfold prodn. cbn [seq map product fold_right Z.of_nat Pos.of_succ_nat Pos.succ]. rewrite Z.add_0_r, Z.mul_1_r. apply cg_refl.
Qed.
Lemma pphi_words R a b : wok 32 R = true -> wok 64 R = true -> (forall i, 0 <= i < R / 64 -> lane 32 (2 * i) b = lane 32 (2 * i + 1) a) ->
  cg 32 (pphi R (mm_mul_epu32 R a b)) (lprod false 32 (nl 32 R) a).
Proof.
  intros H1 H2 H. apply (lprod_pairs false 32); auto; [lia|]. intros i Hi. rewrite mul_epu_lane by auto. rewrite H by auto. apply cg_wrap. lia.
Qed.
Lemma pphi_splat R : wok 32 R = true -> wok 64 R = true -> pphi R (splat 32 R 1) = 1.
Proof.
  intros H1 H2. destruct (wok_spec _ _ H1) as (_ & _ & E1 & N1). destruct (wok_spec _ _ H2) as (_ & _ & E2 & N2).
  apply prodn_one. intros i Hi. rewrite lane_splat by (auto; lia). reflexivity.
Qed.
Lemma lprod_splat R : wok 32 R = true -> lprod false 32 (nl 32 R) (splat 32 R 1) = 1.
Proof. intros H1. destruct (wok_spec _ _ H1) as (_ & _ & E1 & N1). apply prodn_one. intros i Hi. rewrite lane_splat by (auto; lia). reflexivity. Qed.
Lemma lprod_lo R a b : wok 32 R = true -> cg 32 (lprod false 32 (nl 32 R) (v2 32 R Z.mul a b)) (lprod false 32 (nl 32 R) a * lprod false 32 (nl 32 R) b).
Proof.
  intros H1. destruct (wok_spec _ _ H1) as (_ & _ & E1 & N1). unfold lprod. rewrite <- prodn_mul. apply cg_prod; [lia|]. intros i Hi. rewrite N1 in Hi.
  rewrite lane_v2 by auto. apply cg_wrap. lia.
Qed.
Lemma lprod_flag sg n r : cg 32 (lprod sg 32 n r) (lprod false 32 n r).
Proof. apply cg_prod; [lia|]. intros i Hi. apply cg_value. lia. Qed.
Lemma halves32 P : wrap 16 P + wrap 16 (Z.shiftr P 16) * 2 ^ 16 = wrap 32 P.
Proof.
  rewrite Z.shiftr_div_pow2 by lia. unfold wrap. change (2 ^ 32) with (2 ^ 16 * 2 ^ 16). rewrite Z.rem_mul_r by lia. lia.
Qed.

Section L.
  Variables (A : arch) (fp : Z).
  Hypotheses (HV : valid_arch A = true) (Hfp : fp mod 64 = 0).
  Lemma fp16 : fp mod 16 = 0.
  Proof. apply Z.mod_divide; [lia|]. apply Z.mod_divide in Hfp; [|lia]. destruct Hfp as [k ->]. exists (k * 4). lia. Qed.
  Lemma move_word s k r : avail_int A 32 s = true -> reg (rbits s) r -> 0 < k < 4 -> exists m, i_move_l A I32 s k r = Ok m /\ reg (rbits s) m /\
    forall i, 0 <= i < rbits s / 32 -> i mod 4 + k < 4 -> lane 32 i m = lane 32 (i + k) r.
  Proof.
    intros HA Hr Hk. eexists. split; [apply i_move_l_ok; auto; [change (en I32) with 4; lia|apply Z.eqb_neq; lia]|]. split; [apply lsh_reg; destruct s; reflexivity|].
    intros i Hi Hik. cbn [eb]. change (en I32) with 4. pose proof (Z.div_mod i 4 ltac:(lia)) as D. pose proof (Z.mod_pos_bound i 4 ltac:(lia)) as B.
    rewrite D at 1. rewrite lane_lsh.
    - unfold p_move_l. replace (i mod 4 + k <? 4) with true by (symmetry; apply Z.ltb_lt; lia). cbn [nth]. f_equal; lia.
    - destruct s; reflexivity.
    - lia.
    - change (4 * 32) with 128. split; [apply Z.div_pos; lia|]. destruct s; cbn [rbits] in *.
      + change (128 / 32) with 4 in Hi. change (128 / 128) with 1. lia.
      + change (256 / 32) with 8 in Hi. change (256 / 128) with 2. lia.
      + change (512 / 32) with 16 in Hi. change (512 / 128) with 4. lia.
  Qed.
  Lemma wk s : wok 16 (rbits s) = true /\ wok 32 (rbits s) = true /\ wok 64 (rbits s) = true. Proof. destruct s; repeat split; reflexivity. Qed.
  Lemma pairs32_ok s r : avail_int A 32 s = true -> reg (rbits s) r -> exists x, mul_pairs32 A s r = Ok x /\ reg (rbits s) x /\
    cg 32 (pphi (rbits s) x) (lprod false 32 (nl 32 (rbits s)) r).
  Proof.
    intros HA Hr. destruct (wk s) as (_ & W2 & W3). destruct (move_word s 1 r HA Hr ltac:(lia)) as (m & E & Hm & L). unfold mul_pairs32. rewrite E. cbn [bind].
    eexists. split; [reflexivity|]. split; [apply v2_reg; auto|]. apply pphi_words; auto. intros i Hi. apply L.
    - destruct s; cbn [rbits] in *; [change (128 / 32) with 4; change (128 / 64) with 2 in Hi|change (256 / 32) with 8; change (256 / 64) with 4 in Hi|change (512 / 32) with 16; change (512 / 64) with 8 in Hi]; lia.
    - zl.
  Qed.
  Lemma pairs16_ok sg s a : avail_int A 16 s = true -> reg (rbits s) a -> exists x, mul_pairs16 A sg s a = Ok x /\ reg (rbits s) x /\
    cg 32 (lprod false 32 (nl 32 (rbits s)) x) (lprod sg 16 (nl 16 (rbits s)) a).
  Proof.
    intros HA Ha. destruct (wk s) as (W1 & W2 & W3). assert (HA32 : avail_int A 32 s = true).
    { destruct s; cbn in HA |- *; auto. destruct (use_avx512f A) eqn:?; auto; exfalso; vimp HV. }
    unfold mul_pairs16. rewrite (i_shift_r_t_ok A false W32) by (auto; cbn; lia). cbn [bind wb]. rewrite (i_shift_l_t_ok A W32) by (auto; cbn; lia). cbn [bind wb].
    set (al := shr_v _ _ _ _ _). set (ah := shl_v _ _ _ _).
    set (lo := mm_mullo 16 (rbits s) a al). set (hi := if sg then _ else _).
    assert (Hlo : reg (rbits s) lo) by (apply v2_reg; auto). assert (Hhi : reg (rbits s) hi) by (unfold hi; destruct sg; apply v2_reg; auto).
    rewrite i_bit_or_ok by auto. eexists. split; [reflexivity|]. split; [apply lor_reg; auto; destruct s; cbn; lia|].
    apply (lprod_pairs sg 16); auto; [lia|]. intros i Hi. change (2 * 16) with 32 in Hi. cbn [value].
    destruct (wok_spec _ _ W1) as (_ & _ & E1 & _). destruct (wok_spec _ _ W2) as (_ & _ & E2 & _).
    assert (L1 : lane 16 (2 * i) al = lane 16 (2 * i + 1) a /\ lane 16 (2 * i + 1) al = 0).
    { pose proof (lane_range 16 (2 * i + 1) a ltac:(lia)). rewrite <- !lane_lo, <- !lane_hi by lia. change (2 * 16) with 32. unfold al, shr_v. rewrite !lane_v1 by auto.
      rewrite Z.shiftr_div_pow2 by lia. rewrite (lane_hi 16) by lia. rewrite (wrap_small 32) by lia. split; [apply wrap_small; lia|apply Z.div_small; lia]. }
    assert (L2 : lane 16 (2 * i) ah = 0 /\ lane 16 (2 * i + 1) ah = lane 16 (2 * i) a).
    { pose proof (lane_range 16 (2 * i) a ltac:(lia)). pose proof (lane_range 16 (2 * i + 1) a ltac:(lia)).
      assert (E : lane 32 i ah = lane 16 (2 * i) a * 2 ^ 16).
      { unfold ah, shl_v. rewrite lane_v1 by auto. rewrite Z.shiftl_mul_pow2 by lia. change (lane 32 i a) with (lane (16 * 2) i a). rewrite lane_double by lia.
        replace ((lane 16 (2 * i) a + lane 16 (2 * i + 1) a * 2 ^ 16) * 2 ^ 16) with (lane 16 (2 * i) a * 2 ^ 16 + lane 16 (2 * i + 1) a * 2 ^ 32) by lia.
        unfold wrap. rewrite Z.mod_add by lia. apply Z.mod_small. lia. }
      rewrite <- (lane_lo 16 i ah), <- (lane_hi 16 i ah) by lia. change (2 * 16) with 32. rewrite E. split; [unfold wrap; apply Z.mod_mul; lia|apply Z.div_mul; lia]. }
    destruct L1 as [L10 L11], L2 as [L20 L21].
    change (lane 32 i (Z.lor lo hi)) with (lane (16 * 2) i (Z.lor lo hi)). rewrite lane_double by lia. rewrite !lane_lor by lia.
    eapply cg_trans; [|apply (cg_wrap 32 32); lia]. rewrite <- halves32.
    assert (B0 : lane 16 (2 * i) lo = wrap 16 (value sg 16 (lane 16 (2 * i) a) * value sg 16 (lane 16 (2 * i + 1) a))).
    { unfold lo, mm_mullo. rewrite lane_v2 by (auto; lia). rewrite L10.
      apply cg_mul; [lia| |]; (eapply cg_trans; [apply cg_sgn; lia|]; apply cg_sym; apply cg_value; lia). }
    assert (B1 : lane 16 (2 * i + 1) lo = 0) by (unfold lo, mm_mullo; rewrite lane_v2 by (auto; lia); rewrite L11, (sgn_id 16 0), Z.mul_0_r by lia; reflexivity).
    assert (B2 : lane 16 (2 * i) hi = 0).
    { unfold hi, mm_mulhi_epi, mm_mulhi_epu. destruct sg; rewrite lane_v2 by (auto; lia); rewrite L20; [rewrite (sgn_id 16 0) by lia|]; rewrite Z.mul_0_r; reflexivity. }
    assert (B3 : lane 16 (2 * i + 1) hi = wrap 16 (Z.shiftr (value sg 16 (lane 16 (2 * i) a) * value sg 16 (lane 16 (2 * i + 1) a)) 16)).
    { unfold hi, mm_mulhi_epi, mm_mulhi_epu. destruct sg; rewrite lane_v2 by (auto; lia); rewrite L21; cbn [value]; f_equal; f_equal; apply Z.mul_comm. }
    rewrite B0, B1, B2, B3, Z.lor_0_r, Z.lor_0_l. apply cg_refl.
  Qed.
End L.
