(** From one register to vectors of any length, for lane rearrangements. *)
From Verif Require Export Base.Vec Spec.Shuffles.

Lemma vec_impl1_map f g a : (forall x, In x a -> f x = Ok (g x)) -> vec_impl1 f a = Ok (map g a).
Proof.
  induction a as [|x a IH]; intros H; [reflexivity|]. cbn [vec_impl1 map].
  rewrite H by (left; auto). cbn [bind]. rewrite IH; [reflexivity|]. intros; apply H; right; auto.
Qed.
Lemma vec_impl2_map f g a b : (forall x y, In x a -> In y b -> f x y = Ok (g x y)) ->
  vec_impl2 f a b = Ok (zipw g a b).
Proof.
  revert b. induction a as [|x a IH]; intros [|y b] H; try reflexivity. cbn [vec_impl2 zipw].
  rewrite H by (left; auto). cbn [bind]. rewrite IH; [reflexivity|]. intros; apply H; right; auto.
Qed.
Lemma zipw_length {X Y T} (f : X -> Y -> T) a b : length a = length b -> length (zipw f a b) = length a.
Proof. revert b. induction a; destruct b; cbn; intros; try lia. rewrite IHa; lia. Qed.
Lemma nth_zipw {X Y T} (f : X -> Y -> T) a b i dx dy d : length a = length b -> (i < length a)%nat ->
  nth i (zipw f a b) d = f (nth i a dx) (nth i b dy).
Proof.
  revert b i. induction a; destruct b; cbn; intros [|i] HL Hi; try lia; auto. apply IHa; lia.
Qed.

Lemma lanes_length w s v : length (lanes w s v) = (nl w (rbits s) * length v)%nat.
Proof.
  unfold lanes. induction v; cbn; [lia|]. rewrite app_length, elems_length, IHv. lia.
Qed.
Lemma nth_elems w n i r : 0 <= i < Z.of_nat n -> nth (Z.to_nat i) (elems w n r) 0 = lane w i r.
Proof.
  intros H. unfold elems. rewrite nth_indep with (d' := lane w (Z.of_nat n) r).
  - rewrite (map_nth (fun i => lane w (Z.of_nat i) r)). rewrite seq_nth by lia.
    f_equal. lia.
  - rewrite map_length, seq_length. lia.
Qed.
Lemma nth_lanes w s v i : wok w (rbits s) = true -> 0 <= i ->
  nth (Z.to_nat i) (lanes w s v) 0 =
  lane w (i mod (rbits s / w)) (nth (Z.to_nat (i / (rbits s / w))) v 0).
Proof.
  intros H. destruct (wok_spec _ _ H) as (Hw & HR & E & En).
  set (N := rbits s / w) in *. assert (0 < N) by nia. revert i.
  induction v as [|r v IH]; intros i Hi.
  - cbn [lanes flat_map]. destruct (Z.to_nat i), (Z.to_nat (i / N)); cbn; rewrite lane_of_zero; reflexivity.
  - rewrite lanes_cons. destruct (Z.ltb_spec i N).
    + rewrite app_nth1 by (rewrite elems_length; lia). rewrite nth_elems by lia.
      rewrite Z.div_small, Z.mod_small by lia. reflexivity.
    + rewrite app_nth2 by (rewrite elems_length; lia). rewrite elems_length.
      replace (Z.to_nat i - nl w (rbits s))%nat with (Z.to_nat (i - N)) by lia.
      rewrite IH by lia.
      assert (i = (i - N) + 1 * N) as Ei by lia.
      assert (0 <= (i - N) / N) by (apply Z.div_pos; lia).
      rewrite Ei at 3 4. rewrite Z.mod_add, Z.div_add by lia.
      replace (Z.to_nat ((i - N) / N + 1)) with (S (Z.to_nat ((i - N) / N))) by lia. reflexivity.
Qed.
Lemma zrange_length n : length (zrange n) = Z.to_nat n.
Proof. unfold zrange. rewrite map_length, seq_length. reflexivity. Qed.
Lemma nth_zrange n i : (i < Z.to_nat n)%nat -> nth i (zrange n) 0 = Z.of_nat i.
Proof. intros. unfold zrange. change 0 with (Z.of_nat 0). rewrite map_nth, seq_nth by lia. reflexivity. Qed.
Lemma nth_map' {X Y} (f : X -> Y) l i d d' : (i < length l)%nat -> nth i (map f l) d' = f (nth i l d).
Proof. intros. rewrite nth_indep with (d' := f d) by (rewrite map_length; auto). apply map_nth. Qed.

Lemma nth_grouped n L args i : (i < length (hd [] args))%nat ->
  nth i (grouped n L args) 0 = pick n L args (Z.of_nat i).
Proof.
  intros. unfold grouped. rewrite (nth_map' _ _ _ 0) by (rewrite zrange_length; lia).
  rewrite nth_zrange by lia. reflexivity.
Qed.
Lemma grouped_length n L args : length (grouped n L args) = length (hd [] args).
Proof. unfold grouped. rewrite map_length, zrange_length. lia. Qed.

(** index of lane k of group g *)
Lemma group_index N n i : 0 < n -> 0 < N -> (n | N) -> 0 <= i ->
  n * ((i mod N) / n) + N * (i / N) = n * (i / n) /\ (i mod N) mod n = i mod n.
Proof.
  intros Hn HN [q Hq] Hi. subst N.
  assert (0 < q) by nia.
  pose proof (Z.div_mod i (q * n) ltac:(nia)) as E1.
  pose proof (Z.mod_pos_bound i (q * n) ltac:(nia)) as B1.
  assert (i mod (q * n) mod n = i mod n) as EM.
  { rewrite E1 at 2. replace (q * n * (i / (q * n)) + i mod (q * n)) with (i mod (q * n) + (q * (i / (q * n))) * n) by ring.
    rewrite Z.mod_add by lia. reflexivity. }
  split; auto.
  pose proof (Z.div_mod i n ltac:(lia)). pose proof (Z.div_mod (i mod (q * n)) n ltac:(lia)). nia.
Qed.

Section S.
  Variables (w : Z) (s : rsz) (n : Z) (L : Z -> src).
  Hypothesis Hg : gok w (rbits s) n = true.
  Hypothesis HI : in_range n L = true.

  (** one lane of a rearranged vector *)
  Lemma lsh_pick (vs : list vec) (env : list Z) i :
    0 <= i -> length env = length vs ->
    (forall m, (m < length vs)%nat -> nth m env 0 = nth (Z.to_nat (i / (rbits s / w))) (nth m vs []) 0) ->
    lane w (i mod (rbits s / w)) (lsh w (rbits s) n L env) = pick n L (map (lanes w s) vs) i.
  Proof.
    intros Hi HL HE.
    destruct (gok_spec _ _ _ Hg) as (Hw & Hp & HR & Hn & E & E2).
    set (N := rbits s / w) in *.
    assert (0 < rbits s / (n * w)) by nia.
    assert (0 < N) by nia.
    assert ((n | N)) as HD by (exists (rbits s / (n * w)); lia).
    destruct (group_index N n i Hn ltac:(lia) HD Hi) as [EI EM].
    pose proof (Z.mod_pos_bound i N ltac:(lia)) as B.
    pose proof (Z.mod_pos_bound i n ltac:(lia)) as B2.
    rewrite (Z.div_mod (i mod N) n) at 1 by lia. rewrite EM.
    assert (0 <= i mod N / n) by (apply Z.div_pos; lia).
    assert (i mod N / n < rbits s / (n * w)) by (apply Z.div_lt_upper_bound; lia).
    rewrite lane_lsh by auto. unfold pick.
    destruct (L (i mod n)) as [[m j]|] eqn:EL; auto.
    pose proof (in_range_spec _ _ HI _ _ _ B2 EL) as Hj.
    assert (0 <= i / N) by (apply Z.div_pos; lia).
    assert (0 <= n * (i mod N / n) + j < N).
    { split; [nia|]. assert (i mod N / n + 1 <= rbits s / (n * w)) by lia. nia. }
    assert (n * (i / n) + j = N * (i / N) + (n * (i mod N / n) + j)) as EX by lia.
    assert (0 <= N * (i / N)) by nia.
    destruct (Nat.lt_ge_cases m (length vs)).
    - rewrite HE by auto. rewrite (nth_map' (lanes w s) vs m []) by auto.
      rewrite nth_lanes by (auto; lia). fold N. rewrite EX.
      rewrite grp_div, grp_mod by lia. reflexivity.
    - rewrite nth_overflow by lia. rewrite (nth_overflow (map _ _)) by (rewrite map_length; auto).
      rewrite lane_of_zero. destruct (Z.to_nat (n * (i / n) + j)); reflexivity.
  Qed.

  Theorem liftS1 op : (forall a, reg (rbits s) a -> op a = Ok (lsh w (rbits s) n L [a])) ->
    computesS1 w s n (vec_impl1 op) L.
  Proof.
    intros Hop va Ha. unfold wfv in Ha. rewrite Forall_forall in Ha.
    destruct (gok_spec _ _ _ Hg) as (Hw & Hp & HR & Hn & E & E2).
    destruct (wok_spec _ _ Hw) as (_ & _ & E3 & En).
    exists (map (fun a => lsh w (rbits s) n L [a]) va).
    split; [apply vec_impl1_map; intros; apply Hop; auto|].
    split. { unfold wfv. apply Forall_map. rewrite Forall_forall. intros. apply lsh_reg; auto. }
    split; [apply map_length|].
    apply (nth_ext _ _ 0 0).
    - rewrite grouped_length. cbn [hd]. rewrite !lanes_length, map_length. reflexivity.
    - intros i Hi. rewrite lanes_length, map_length in Hi.
      rewrite nth_grouped by (cbn [hd]; rewrite lanes_length; auto).
      rewrite <- (Nat2Z.id i) at 1. rewrite nth_lanes by (auto; lia).
      set (N := rbits s / w) in *.
      assert (0 <= Z.of_nat i / N < Z.of_nat (length va)).
      { split; [apply Z.div_pos; nia|apply Z.div_lt_upper_bound; nia]. }
      rewrite (nth_map' _ _ _ 0) by lia.
      apply (lsh_pick [va] [nth (Z.to_nat (Z.of_nat i / N)) va 0] (Z.of_nat i)); auto; try lia.
      intros [|m] Hm; cbn in *; try lia. reflexivity.
  Qed.
  Theorem liftS2 op : (forall a b, reg (rbits s) a -> reg (rbits s) b -> op a b = Ok (lsh w (rbits s) n L [a; b])) ->
    computesS2 w s n (vec_impl2 op) L.
  Proof.
    intros Hop va vb Ha Hb HL. unfold wfv in Ha, Hb. rewrite Forall_forall in Ha, Hb.
    destruct (gok_spec _ _ _ Hg) as (Hw & Hp & HR & Hn & E & E2).
    destruct (wok_spec _ _ Hw) as (_ & _ & E3 & En).
    exists (zipw (fun a b => lsh w (rbits s) n L [a; b]) va vb).
    split; [apply vec_impl2_map; intros; apply Hop; auto|].
    split. { unfold wfv. clear -Hw. revert vb. induction va; destruct vb; cbn; constructor; auto. }
    split; [apply zipw_length; auto|].
    apply (nth_ext _ _ 0 0).
    - rewrite grouped_length. cbn [hd]. rewrite !lanes_length, zipw_length by auto. reflexivity.
    - intros i Hi. rewrite lanes_length, zipw_length in Hi by auto.
      rewrite nth_grouped by (cbn [hd]; rewrite lanes_length; auto).
      rewrite <- (Nat2Z.id i) at 1. rewrite nth_lanes by (auto; lia).
      set (N := rbits s / w) in *.
      assert (0 <= Z.of_nat i / N < Z.of_nat (length va)).
      { split; [apply Z.div_pos; nia|apply Z.div_lt_upper_bound; nia]. }
      rewrite (nth_zipw _ _ _ _ 0 0) by (auto; lia).
      apply (lsh_pick [va; vb] [nth (Z.to_nat (Z.of_nat i / N)) va 0; nth (Z.to_nat (Z.of_nat i / N)) vb 0] (Z.of_nat i)); auto; try lia.
      intros [|[|m]] Hm; cbn in *; try lia; reflexivity.
  Qed.
End S.
