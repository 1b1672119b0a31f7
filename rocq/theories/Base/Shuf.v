(** Lane selections: the vocabulary in which shuffle instructions are given, and its
    algebra.  Nothing here models library code. *)
From Verif Require Export Base.Isa.

(** Where a result lane comes from: zero, or lane j of the i-th argument, counted inside
    the same group of lanes. *)
Definition src := option (nat * Z).
Notation "'fromA' j" := (@Some (nat * Z) (0%nat, j)) (at level 10, j at level 9).
Notation "'fromB' j" := (@Some (nat * Z) (1%nat, j)) (at level 10, j at level 9).
Notation zlane := (@None (nat * Z)).

(** R-bit register made of groups of n w-bit lanes; lane k of group g is taken from group
    g of the arguments as told by [L k]. *)
Definition lsh (w R n : Z) (L : Z -> src) (env : list Z) : Z :=
  pack w R (fun i => match L (i mod n) with
                     | None => 0
                     | Some (m, j) => lane w (n * (i / n) + j) (nth m env 0)
                     end).

Definition src_eqb (x y : src) : bool :=
  match x, y with
  | None, None => true
  | Some (i, j), Some (k, l) => Nat.eqb i k && Z.eqb j l
  | _, _ => false
  end.
Lemma src_eqb_eq x y : src_eqb x y = true -> x = y.
Proof.
  destruct x as [[i j]|], y as [[k l]|]; cbn; try discriminate; auto.
  rewrite andb_true_iff, Nat.eqb_eq, Z.eqb_eq. intros [-> ->]. reflexivity.
Qed.

(** All integers in [0,n). *)
Definition zrange (n : Z) : list Z := map Z.of_nat (seq 0 (Z.to_nat n)).
Lemma in_zrange n k : 0 <= k < n -> In k (zrange n).
Proof.
  intros. unfold zrange. apply in_map_iff. exists (Z.to_nat k). rewrite Z2Nat.id by lia.
  split; auto. apply in_seq. lia.
Qed.
Lemma zrange_in n k : In k (zrange n) -> 0 <= k < n.
Proof. unfold zrange. rewrite in_map_iff. intros (x & <- & H). apply in_seq in H. lia. Qed.
Lemma forallb_zrange (P : Z -> bool) n : forallb P (zrange n) = true ->
  forall k, 0 <= k < n -> P k = true.
Proof. intros H k Hk. rewrite forallb_forall in H. apply H, in_zrange; auto. Qed.

(** Quotients and remainders of group indices. *)
Lemma grp_div n g k : 0 <= k < n -> (n * g + k) / n = g.
Proof. intros. rewrite Z.mul_comm, Z.div_add_l by lia. rewrite Z.div_small by lia. lia. Qed.
Lemma grp_mod n g k : 0 <= k < n -> (n * g + k) mod n = k.
Proof. intros. rewrite Z.add_comm, Z.mul_comm, Z.mod_add by lia. apply Z.mod_small; lia. Qed.

(** Groups fit the register. *)
Definition gok (w R n : Z) : bool := wok w R && (0 <? n) && (R mod (n * w) =? 0).
Lemma gok_spec w R n : gok w R n = true ->
  wok w R = true /\ 0 < w /\ 0 < R /\ 0 < n /\ R = n * w * (R / (n * w)) /\ R / w = n * (R / (n * w)).
Proof.
  unfold gok. rewrite !andb_true_iff, Z.ltb_lt, Z.eqb_eq. intros [[Hw Hn] Hm].
  destruct (wok_spec _ _ Hw) as (Hp & HR & E & En).
  assert (R = n * w * (R / (n * w))) as E2 by (apply Z.div_exact; lia).
  repeat split; auto. apply (Z.mul_reg_l _ _ w); lia.
Qed.

Lemma lsh_reg w R n L env : wok w R = true -> reg R (lsh w R n L env).
Proof. intros. apply pack_reg; auto. Qed.
#[global] Hint Resolve lsh_reg : core.

Lemma lane_lsh w R n L env g k : gok w R n = true -> 0 <= k < n -> 0 <= g < R / (n * w) ->
  lane w (n * g + k) (lsh w R n L env) =
  match L k with None => 0 | Some (m, j) => lane w (n * g + j) (nth m env 0) end.
Proof.
  intros H Hk Hg. destruct (gok_spec _ _ _ H) as (Hw & Hp & HR & Hn & E & E2).
  unfold lsh. rewrite lane_pack by (auto; nia).
  rewrite grp_div, grp_mod by auto.
  destruct (L k) as [[m j]|]; [apply wrap_lane|]. apply wrap_small. pose proof (pow2_pos w). lia.
Qed.

Lemma grp_lanes w R n x y : gok w R n = true -> reg R x -> reg R y ->
  (forall g k, 0 <= g < R / (n * w) -> 0 <= k < n -> lane w (n * g + k) x = lane w (n * g + k) y) ->
  x = y.
Proof.
  intros H Hx Hy HL. destruct (gok_spec _ _ _ H) as (Hw & Hp & HR & Hn & E & E2).
  apply (reg_lanes w R); auto. intros i Hi.
  assert (0 <= i mod n < n) by (apply Z.mod_pos_bound; lia).
  rewrite (Z.div_mod i n) by lia. apply HL; auto.
  split; [apply Z.div_pos; lia|]. apply Z.div_lt_upper_bound; lia.
Qed.

(** A register is the selection given by its lanes. *)
Lemma eq_lsh w R n L env r : gok w R n = true -> reg R r ->
  (forall g k, 0 <= g < R / (n * w) -> 0 <= k < n -> lane w (n * g + k) r =
     match L k with None => 0 | Some (m, j) => lane w (n * g + j) (nth m env 0) end) ->
  r = lsh w R n L env.
Proof.
  intros H Hr HL. destruct (gok_spec _ _ _ H) as (Hw & _).
  apply (grp_lanes w R n); auto.
  intros. rewrite lane_lsh by auto. auto.
Qed.

Lemma lsh_ext w R n L M env : gok w R n = true -> (forall k, 0 <= k < n -> L k = M k) ->
  lsh w R n L env = lsh w R n M env.
Proof.
  intros H HE. destruct (gok_spec _ _ _ H) as (Hw & _).
  apply eq_lsh; auto. intros. rewrite lane_lsh, HE by auto. reflexivity.
Qed.
Lemma lsh_extb w R n L M env : gok w R n = true ->
  forallb (fun k => src_eqb (L k) (M k)) (zrange n) = true ->
  lsh w R n L env = lsh w R n M env.
Proof.
  intros H HB. apply lsh_ext; auto. intros k Hk. apply src_eqb_eq.
  apply (forallb_zrange _ _ HB k Hk).
Qed.

Lemma lsh_id w R n env m r : gok w R n = true -> reg R r -> nth m env 0 = r ->
  lsh w R n (fun k => Some (m, k)) env = r.
Proof. intros H Hr E. symmetry. apply eq_lsh; auto. intros. rewrite E. reflexivity. Qed.

(** Splitting lanes: a selection of w-bit lanes is a selection of bytes. *)
Definition fine (m : Z) (L : Z -> src) (k : Z) : src :=
  match L (k / m) with None => None | Some (i, j) => Some (i, m * j + k mod m) end.

Definition in_range (n : Z) (L : Z -> src) : bool :=
  forallb (fun k => match L k with None => true | Some (_, j) => (0 <=? j) && (j <? n) end) (zrange n).
Lemma in_range_spec n L : in_range n L = true -> forall k m j, 0 <= k < n -> L k = Some (m, j) -> 0 <= j < n.
Proof.
  intros H k m j Hk E. pose proof (forallb_zrange _ _ H k Hk) as HB. cbn in HB. rewrite E in HB.
  rewrite andb_true_iff, Z.leb_le, Z.ltb_lt in HB. lia.
Qed.

Lemma lane_fine_gen w m i r : 0 < w -> 0 < m -> 0 <= i ->
  lane w i r = lane w (i mod m) (lane (m * w) (i / m) r).
Proof.
  intros Hw Hm Hi. assert (0 <= i mod m < m) by (apply Z.mod_pos_bound; lia).
  assert (0 <= i / m) by (apply Z.div_pos; lia).
  apply (bits_ext w); try lia; try (apply lane_range; lia).
  intros k Hk. rewrite !testbit_lane by nia.
  destruct (Z.ltb_spec k w); [|lia]. cbn [andb].
  destruct (Z.ltb_spec (w * (i mod m) + k) (m * w)); [|nia]. cbn [andb]. f_equal.
  pose proof (Z.div_mod i m). nia.
Qed.
Lemma lane_fine w m n g k r : 0 < w -> 0 < m -> 0 <= n -> 0 <= g -> 0 <= k ->
  lane w ((m * n) * g + k) r = lane w (k mod m) (lane (m * w) (n * g + k / m) r).
Proof.
  intros Hw Hm Hn Hg Hk.
  assert (0 <= n * g) by (apply Z.mul_nonneg_nonneg; lia).
  assert (0 <= m * n * g) by (rewrite <- Z.mul_assoc; apply Z.mul_nonneg_nonneg; lia).
  rewrite (lane_fine_gen w m) by lia. f_equal.
  - rewrite Z.add_comm, <- Z.mul_assoc, (Z.mul_comm m), Z.mod_add by lia. reflexivity.
  - f_equal. rewrite <- Z.mul_assoc, (Z.mul_comm m), Z.div_add_l by lia. reflexivity.
Qed.

Theorem lsh_fine w R n m L env : 0 < m -> gok w R (m * n) = true -> gok (m * w) R n = true ->
  in_range n L = true ->
  lsh (m * w) R n L env = lsh w R (m * n) (fine m L) env.
Proof.
  intros Hm H1 H2 HI.
  destruct (gok_spec _ _ _ H1) as (Hw & Hp & HR & Hn & E & E2).
  destruct (gok_spec _ _ _ H2) as (Hw' & Hp' & HR' & Hn' & E' & E2').
  apply eq_lsh; auto. intros g k Hg Hk.
  assert (0 <= k / m < n) by (split; [apply Z.div_pos; lia|apply Z.div_lt_upper_bound; lia]).
  assert (0 <= k mod m < m) by (apply Z.mod_pos_bound; lia).
  rewrite (lane_fine w m n) by lia.
  assert (m * n * w = n * (m * w)) as EE by lia. rewrite EE in Hg.
  rewrite lane_lsh by auto. unfold fine.
  destruct (L (k / m)) as [[i j]|] eqn:EL.
  - assert (0 <= j < n) by (apply (in_range_spec _ _ HI _ _ _ ltac:(eassumption) EL)).
    rewrite (lane_fine w m n) by nia. f_equal.
    + rewrite grp_mod by lia. reflexivity.
    + f_equal. rewrite grp_div by lia. reflexivity.
  - apply lane_of_zero.
Qed.

(** Selecting from selections. *)
Definition comp (L : Z -> src) (Ms : list (Z -> src)) (k : Z) : src :=
  match L k with
  | None => None
  | Some (i, j) => match nth_error Ms i with None => None | Some M => M j end
  end.
Theorem lsh_comp w R n L Ms env : gok w R n = true -> in_range n L = true ->
  lsh w R n L (map (fun M => lsh w R n M env) Ms) = lsh w R n (comp L Ms) env.
Proof.
  intros H HI. destruct (gok_spec _ _ _ H) as (Hw & Hp & HR & Hn & E & E2).
  apply eq_lsh; auto. intros g k Hg Hk. rewrite lane_lsh by auto. unfold comp.
  destruct (L k) as [[i j]|] eqn:EL; auto.
  pose proof (in_range_spec _ _ HI _ _ _ Hk EL) as Hj.
  destruct (nth_error Ms i) as [M|] eqn:EM.
  - rewrite (nth_error_nth (map (fun M => lsh w R n M env) Ms) i 0 (x := lsh w R n M env)).
    + rewrite lane_lsh by auto. reflexivity.
    + rewrite nth_error_map, EM. reflexivity.
  - rewrite nth_overflow. { apply lane_of_zero. }
    rewrite map_length. apply nth_error_None. auto.
Qed.

(** Disjoint unions, masks and merges of selections. *)
Definition merge (L M : Z -> src) (k : Z) : src := match L k with None => M k | x => x end.
Theorem lor_lsh w R n L M env : gok w R n = true ->
  (forall k, 0 <= k < n -> L k = None \/ M k = None) ->
  Z.lor (lsh w R n L env) (lsh w R n M env) = lsh w R n (merge L M) env.
Proof.
  intros H HD. destruct (gok_spec _ _ _ H) as (Hw & Hp & HR & Hn & E & E2).
  apply eq_lsh; auto. { apply lor_reg; try lia; apply lsh_reg; auto. }
  intros g k Hg Hk. rewrite lane_lor by nia. rewrite !lane_lsh by auto. unfold merge.
  destruct (HD k Hk) as [->| ->].
  - rewrite Z.lor_0_l. reflexivity.
  - rewrite Z.lor_0_r. destruct (L k) as [[i j]|]; reflexivity.
Qed.
(** [msk w R n p]: all-ones in the lanes of each group where p holds, zero elsewhere *)
Definition msk (w R n : Z) (p : Z -> bool) : Z :=
  pack w R (fun i => if p (i mod n) then ones w else 0).
Lemma msk_reg w R n p : wok w R = true -> reg R (msk w R n p).
Proof. intros. apply pack_reg; auto. Qed.
#[global] Hint Resolve msk_reg : core.
Lemma lane_msk w R n p g k : gok w R n = true -> 0 <= k < n -> 0 <= g < R / (n * w) ->
  lane w (n * g + k) (msk w R n p) = if p k then ones w else 0.
Proof.
  intros H Hk Hg. destruct (gok_spec _ _ _ H) as (Hw & Hp & HR & Hn & E & E2).
  unfold msk. rewrite lane_pack by (auto; nia). rewrite grp_mod by auto.
  destruct (p k); [apply wrap_ones; lia|]. apply wrap_small. pose proof (pow2_pos w). lia.
Qed.
Lemma land_ones_r w x : 0 <= w -> 0 <= x < 2 ^ w -> Z.land x (ones w) = x.
Proof.
  intros Hw Hx. unfold ones. rewrite Z.sub_1_r, <- Z.ones_equiv, Z.land_ones by lia.
  apply Z.mod_small; auto.
Qed.
Lemma ldiff_ones_r w x : 0 <= w -> 0 <= x < 2 ^ w -> Z.ldiff x (ones w) = 0.
Proof.
  intros Hw Hx. unfold ones. rewrite Z.sub_1_r, <- Z.ones_equiv.
  rewrite Z.ldiff_ones_r by lia. rewrite Z.shiftr_div_pow2 by lia.
  rewrite Z.div_small by lia. apply Z.shiftl_0_l.
Qed.
Theorem land_lsh w R n L p env : gok w R n = true ->
  Z.land (lsh w R n L env) (msk w R n p) = lsh w R n (fun k => if p k then L k else None) env.
Proof.
  intros H. destruct (gok_spec _ _ _ H) as (Hw & Hp & HR & Hn & E & E2).
  apply eq_lsh; auto. { apply land_reg; try lia; auto. }
  intros g k Hg Hk. rewrite lane_land by nia. rewrite lane_lsh, lane_msk by auto.
  destruct (p k); [|rewrite Z.land_0_r; reflexivity].
  apply land_ones_r; [lia|]. destruct (L k) as [[i j]|]; [apply lane_range; lia|].
  pose proof (pow2_pos w). lia.
Qed.
Theorem ldiff_lsh w R n L p env : gok w R n = true ->
  Z.ldiff (lsh w R n L env) (msk w R n p) = lsh w R n (fun k => if p k then None else L k) env.
Proof.
  intros H. destruct (gok_spec _ _ _ H) as (Hw & Hp & HR & Hn & E & E2).
  apply eq_lsh; auto. { apply ldiff_reg; try lia; auto. }
  intros g k Hg Hk. rewrite lane_ldiff by nia. rewrite lane_lsh, lane_msk by auto.
  destruct (p k); [|rewrite Z.ldiff_0_r; reflexivity].
  apply ldiff_ones_r; [lia|]. destruct (L k) as [[i j]|]; [apply lane_range; lia|].
  pose proof (pow2_pos w). lia.
Qed.
