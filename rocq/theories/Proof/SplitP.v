From Verif Require Export Proof.ConvertP.

Lemma firstn_S_nth (l : vec) o : (o < length l)%nat -> firstn (S o) l = firstn o l ++ [nth o l 0].
Proof. revert o. induction l; intros [|o] H; cbn in *; try lia; auto. f_equal. apply IHl. lia. Qed.
Lemma upd_at l y m x i : i = length l -> upd (l ++ y :: m) i x = l ++ x :: m.
Proof. intros ->. apply upd_app. Qed.
Lemma split_unroll_ok l1 l2 h : length l1 = h -> length l2 = h -> forall n i r1 r2, (i + n = h)%nat -> length r1 = n -> length r2 = n ->
  split_unroll n i (l1 ++ l2) (firstn i l1 ++ r1) (firstn i l2 ++ r2) = Ok (l1, l2).
Proof.
  intros H1 H2. induction n as [|n IH]; intros i r1 r2 Hi L1 L2.
  - destruct r1, r2; try discriminate. cbn [split_unroll]. rewrite !firstn_all2, !app_nil_r by lia. reflexivity.
  - destruct r1 as [|y1 r1], r2 as [|y2 r2]; try discriminate. cbn in L1, L2. cbn [split_unroll].
    rewrite aget_in by (rewrite app_length; lia). cbn [bind].
    assert (length (firstn i l1) = i) as F1 by (rewrite firstn_length; lia).
    assert (length (firstn i l2) = i) as F2 by (rewrite firstn_length; lia).
    rewrite aset_in by (rewrite app_length; cbn; lia). cbn [bind].
    rewrite upd_at by lia. rewrite app_nth1 by lia.
    rewrite aget_in by (rewrite !app_length; cbn; lia). cbn [bind].
    rewrite aset_in by (rewrite app_length; cbn; lia). cbn [bind].
    rewrite upd_at by lia. rewrite (app_nth2 l1) by (rewrite app_length; cbn; lia).
    replace (i + length (firstn i l1 ++ nth i l1 0%Z :: r1) - length l1)%nat with i by (rewrite app_length; cbn; lia).
    replace (firstn i l1 ++ nth i l1 0 :: r1) with (firstn (S i) l1 ++ r1) by (rewrite firstn_S_nth, <- app_assoc by lia; reflexivity).
    replace (firstn i l2 ++ nth i l2 0 :: r2) with (firstn (S i) l2 ++ r2) by (rewrite firstn_S_nth, <- app_assoc by lia; reflexivity).
    apply IH; lia.
Qed.
Lemma combine_unroll_ok l1 l2 h : length l1 = h -> length l2 = h -> forall n i r1 r2, (i + n = h)%nat -> length r1 = n -> length r2 = n ->
  combine_unroll n i ((firstn i l1 ++ r1) ++ (firstn i l2 ++ r2)) l1 l2 = Ok (l1 ++ l2).
Proof.
  intros H1 H2. induction n as [|n IH]; intros i r1 r2 Hi L1 L2.
  - destruct r1, r2; try discriminate. cbn [combine_unroll]. rewrite !firstn_all2, !app_nil_r by lia. reflexivity.
  - destruct r1 as [|y1 r1], r2 as [|y2 r2]; try discriminate. cbn in L1, L2. cbn [combine_unroll].
    assert (length (firstn i l1) = i) as F1 by (rewrite firstn_length; lia).
    assert (length (firstn i l2) = i) as F2 by (rewrite firstn_length; lia).
    rewrite aget_in by lia. cbn [bind].
    rewrite aset_in by (rewrite !app_length; cbn [length]; lia). cbn [bind].
    rewrite <- app_assoc. cbn [app]. rewrite upd_at by lia.
    rewrite aget_in by lia. cbn [bind].
    rewrite aset_in by (rewrite !app_length; cbn [length]; rewrite !app_length; cbn [length]; lia). cbn [bind].
    replace (firstn i l1 ++ nth i l1 0 :: r1 ++ firstn i l2 ++ y2 :: r2) with ((firstn i l1 ++ nth i l1 0 :: r1 ++ firstn i l2) ++ y2 :: r2)
      by (rewrite <- !app_assoc; cbn [app]; rewrite <- !app_assoc; reflexivity).
    rewrite upd_at by (rewrite !app_length; cbn [length]; rewrite !app_length; lia).
    replace ((firstn i l1 ++ nth i l1 0 :: r1 ++ firstn i l2) ++ nth i l2 0 :: r2) with ((firstn (S i) l1 ++ r1) ++ firstn (S i) l2 ++ r2)
      by (rewrite !firstn_S_nth by lia; rewrite <- !app_assoc; cbn [app]; rewrite <- !app_assoc; reflexivity).
    apply IH; lia.
Qed.

(** one register and its halves *)
Lemma elems_halves w H a : wok w H = true ->
  elems w (nl w (2 * H)) a = elems w (nl w H) (lane H 0 a) ++ elems w (nl w H) (lane H 1 a).
Proof.
  intros Hw. destruct (wok_spec _ _ Hw) as (Hp & HR & E & En).
  assert (2 * H / w = H / w + H / w) as E2 by (rewrite E at 1; replace (2 * (w * (H / w))) with ((H / w + H / w) * w) by ring; apply Z.div_mul; lia).
  assert (0 < H / w) by nia.
  unfold elems, nl. rewrite E2, Z2Nat.inj_add by lia. rewrite seq_app, map_app. cbn [Nat.add]. f_equal.
  - apply map_ext_in. intros i Hi. apply in_seq in Hi. replace (lane H 0 a) with (lane (w * (H / w)) 0 a) by (rewrite <- E; reflexivity). rewrite lane_lane by lia. f_equal; lia.
  - rewrite seq_shift_map. apply map_ext_in. intros i Hi. apply in_seq in Hi. replace (lane H 1 a) with (lane (w * (H / w)) 1 a) by (rewrite <- E; reflexivity). rewrite lane_lane by lia. f_equal; lia.
Qed.
Lemma combine_halves w H a b : wok w H = true -> wok H (2 * H) = true -> reg H a -> reg H b ->
  elems w (nl w (2 * H)) (pack H (2 * H) (fun i => if i =? 0 then a else b)) = elems w (nl w H) a ++ elems w (nl w H) b.
Proof.
  intros Hw HH Ha Hb. rewrite elems_halves by auto.
  destruct (wok_spec _ _ Hw) as (Hp & HR & _). assert (2 * H / H = 2) as E by (apply Z.div_mul; lia).
  rewrite !lane_pack by (auto; lia). cbn [Z.eqb]. rewrite !wrap_small; auto.
Qed.
(** [rs]: how vectors are laid out: from some size on in registers of one size *)
Definition layout (rs : Z -> rsz) : Prop := exists m, forall T,
  rs T = if T <=? 128 then R128 else match m with R128 => R128 | R256 => R256 | R512 => if T <=? 256 then R256 else R512 end.
Lemma layout_int A w : layout (vreg A w). Proof. exists (fast_int A w). reflexivity. Qed.
Lemma layout_flt A : layout (vregf A). Proof. exists (fast_flt A). reflexivity. Qed.
Definition lw (w : Z) : Prop := w = 8 \/ w = 16 \/ w = 32 \/ w = 64.
Lemma lw_ok w H : lw w -> (H = 128 \/ H = 256 \/ H = 512) -> wok w H = true.
Proof. intros [-> |[-> |[-> | ->]]] [-> |[-> | ->]]; reflexivity. Qed.

Lemma layout_cases rs T : layout rs -> vsize T ->
  (rs T = rs (2 * T) /\ 2 * T <> rbits (rs (2 * T))) \/
  (T = 128 /\ rs T = R128 /\ rs (2 * T) = R256) \/ (T = 256 /\ rs T = R256 /\ rs (2 * T) = R512).
Proof.
  intros [m Hm] HT. destruct (vsize_div _ HT) as [-> |[-> |[-> |(Hb & q & ->)]]].
  - destruct m; rewrite !Hm; cbn; [left; split; [reflexivity|discriminate]|auto|auto].
  - destruct m; rewrite !Hm; cbn; [left; split; [reflexivity|discriminate]|left; split; [reflexivity|discriminate]|auto].
  - left. destruct m; rewrite !Hm; cbn; split; try reflexivity; discriminate.
  - left. rewrite !Hm. destruct (Z.leb_spec (1024 * q) 128), (Z.leb_spec (2 * (1024 * q)) 128), (Z.leb_spec (1024 * q) 256), (Z.leb_spec (2 * (1024 * q)) 256); try lia.
    destruct m; cbn [rbits]; split; auto; lia.
Qed.
Theorem i_combine_ok w T rs : lw w -> vsize T -> layout rs -> joins w T rs (i_combine (rs T) (rs (2 * T))).
Proof.
  intros Hw HT HL va vb Wa La Wb Lb.
  destruct (layout_cases rs T HL HT) as [[E Hne]|[(-> & E1 & E2)|(-> & E1 & E2)]].
  - assert (length vb = length va) as Hl by (pose proof (rb_pos (rs T)); nia).
    exists (va ++ vb). rewrite <- E in *. split; [|split].
    + assert (i_combine (rs T) (rs T) va vb = combine_unroll (length va) 0 (repeat 0 (length va + length va)) va vb) as ->.
      { destruct va as [|x [|y va]], vb as [|z [|u vb]], (rs T); reflexivity. }
      rewrite repeat_app. apply (combine_unroll_ok va vb (length va) eq_refl Hl (length va) 0 (repeat 0 (length va)) (repeat 0 (length va))); rewrite ?repeat_length; auto.
    + split; [apply wfv_app; auto|]. rewrite app_length. lia.
    + apply lanes_app.
  - rewrite E1, E2 in *. change (rbits R128) with 128 in *.
    assert (length va = 1%nat /\ length vb = 1%nat) as [L1 L2] by lia.
    destruct va as [|a [|? ?]], vb as [|b [|? ?]]; try discriminate.
    apply wfv_cons in Wa as [Wa _]. apply wfv_cons in Wb as [Wb _].
    eexists. cbn [i_combine i_combine1]. split; [reflexivity|]. split; [split; [apply wfv_cons; split; [apply pack_reg; reflexivity|constructor]|reflexivity]|].
    unfold lanes. cbn [flat_map]. rewrite !app_nil_r. apply (combine_halves w 128); auto. apply lw_ok; auto.
  - rewrite E1, E2 in *. change (rbits R256) with 256 in *.
    assert (length va = 1%nat /\ length vb = 1%nat) as [L1 L2] by lia.
    destruct va as [|a [|? ?]], vb as [|b [|? ?]]; try discriminate.
    apply wfv_cons in Wa as [Wa _]. apply wfv_cons in Wb as [Wb _].
    eexists. cbn [i_combine i_combine1]. split; [reflexivity|]. split; [split; [apply wfv_cons; split; [apply pack_reg; reflexivity|constructor]|reflexivity]|].
    unfold lanes. cbn [flat_map]. rewrite !app_nil_r. apply (combine_halves w 256); auto. apply lw_ok; auto.
Qed.
Theorem i_split_ok w T rs : lw w -> vsize T -> layout rs -> splits w (2 * T) rs (i_split (rs (2 * T))).
Proof.
  intros Hw HT HL va Wa La. replace (2 * T / 2) with T by (rewrite Z.mul_comm, Z.div_mul; lia).
  assert (0 < T) as HTp by (destruct HT as [k ->]; pose proof (pow2_pos (Z.of_nat k) ltac:(lia)); lia).
  destruct (layout_cases rs T HL HT) as [[E Hne]|[(-> & E1 & E2)|(-> & E1 & E2)]].
  - rewrite <- E in *. assert (1 < length va)%nat as Hl by (destruct va as [|x [|y va]]; cbn [length] in *; lia).
    set (h := (length va / 2)%nat).
    assert (T = Z.of_nat h * rbits (rs T) /\ (length va = h + h)%nat) as [HTh Hlh].
    { assert (exists j, (length va = 2 * j)%nat) as [j Hj].
      { destruct HL as [m Hm]. destruct HT as [k Hk].
        assert (exists q, T = rbits (rs T) * q) as [q Hq].
        { destruct (vsize_div _ (ex_intro _ k Hk)) as [-> |[-> |[-> |(Hb & q & ->)]]]; rewrite Hm.
          - exists 1. reflexivity.
          - destruct m; cbn [rbits]; [exists 2|exists 1|exists 1]; reflexivity.
          - destruct m; cbn [rbits]; [exists 4|exists 2|exists 1]; reflexivity.
          - destruct (Z.leb_spec (1024 * q) 128); [lia|]. destruct (Z.leb_spec (1024 * q) 256); [lia|].
            destruct m; cbn [rbits]; [exists (8 * q)|exists (4 * q)|exists (2 * q)]; ring. }
        exists (Z.to_nat q). pose proof (rb_pos (rs T)). nia. }
      assert (h = j) as -> by (unfold h; rewrite Hj, Nat.mul_comm; apply Nat.div_mul; lia).
      split; [|lia]. rewrite Hj in La. lia. }
    exists (firstn h va), (skipn h va).
    assert (length (firstn h va) = h) as F1 by (rewrite firstn_length; lia).
    assert (length (skipn h va) = h) as F2 by (rewrite skipn_length; lia).
    split; [|split; [|split]].
    + assert (i_split (rs T) va = split_unroll h 0 va (repeat 0 h) (repeat 0 h)) as ->.
      { unfold h. destruct va as [|x [|y va]]; cbn in Hl; try lia; reflexivity. }
      rewrite <- (firstn_skipn h va) at 1.
      apply (split_unroll_ok (firstn h va) (skipn h va) h F1 F2 h 0 (repeat 0 h) (repeat 0 h)); rewrite ?repeat_length; auto.
    + split; [|lia]. unfold wfv in *. rewrite <- (firstn_skipn h va) in Wa. apply Forall_app in Wa. tauto.
    + split; [|lia]. unfold wfv in *. rewrite <- (firstn_skipn h va) in Wa. apply Forall_app in Wa. tauto.
    + rewrite <- lanes_app, firstn_skipn. reflexivity.
  - rewrite E1, E2 in *. change (rbits R256) with 256 in *. change (rbits R128) with 128 in *.
    assert (length va = 1%nat) as L1 by lia. destruct va as [|a [|? ?]]; try discriminate.
    cbn [i_split i_split1]. eexists _, _. split; [reflexivity|].
    split; [split; [apply wfv_cons; split; [apply lane_range; discriminate|constructor]|reflexivity]|].
    split; [split; [apply wfv_cons; split; [apply lane_range; discriminate|constructor]|reflexivity]|].
    unfold lanes. cbn [flat_map]. rewrite !app_nil_r. apply (elems_halves w 128). apply lw_ok; auto.
  - rewrite E1, E2 in *. change (rbits R256) with 256 in *. change (rbits R512) with 512 in *.
    assert (length va = 1%nat) as L1 by lia. destruct va as [|a [|? ?]]; try discriminate.
    cbn [i_split i_split1]. eexists _, _. split; [reflexivity|].
    split; [split; [apply wfv_cons; split; [apply lane_range; discriminate|constructor]|reflexivity]|].
    split; [split; [apply wfv_cons; split; [apply lane_range; discriminate|constructor]|reflexivity]|].
    unfold lanes. cbn [flat_map]. rewrite !app_nil_r. apply (elems_halves w 256). apply lw_ok; auto.
Qed.
