(** Registers as integers, lanes, and the lane calculus used everywhere.
    Nothing here models library code; this is the vocabulary of the model. *)
From Coq Require Export ZArith List Bool Lia.
Export ListNotations.
Open Scope Z_scope.

(** Outcome of a computation: a value, C++ undefined behaviour, or code that
    does not compile/link (the SIMDPP_NOT_IMPLEMENTED macros). *)
Inductive res (T : Type) : Type :=
| Ok (x : T)
| UB
| NotImpl.
Arguments Ok {T} x.
Arguments UB {T}.
Arguments NotImpl {T}.

Definition bind {T U} (m : res T) (f : T -> res U) : res U :=
  match m with Ok x => f x | UB => UB | NotImpl => NotImpl end.
Notation "'let*' x := m 'in' k" := (bind m (fun x => k))
  (at level 200, x name, m at level 100, k at level 200, right associativity).

(** [wrap w x]: x reduced to an unsigned w-bit value.
    [sgn w x]: the w-bit two's complement reading of x. *)
Definition wrap (w x : Z) : Z := x mod 2 ^ w.
Definition sgn (w x : Z) : Z :=
  let y := x mod 2 ^ w in if y <? 2 ^ (w - 1) then y else y - 2 ^ w.
Definition ones (w : Z) : Z := 2 ^ w - 1.

(** Lane i of width w of register r (lane 0 = least significant). *)
Definition lane (w i r : Z) : Z := (Z.shiftr r (w * i)) mod 2 ^ w.

(** Register with n lanes of width w, lane i being [f i] truncated. *)
Fixpoint mk (w : Z) (n : nat) (f : Z -> Z) : Z :=
  match n with
  | O => 0
  | S k => mk w k f + (f (Z.of_nat k) mod 2 ^ w) * 2 ^ (w * Z.of_nat k)
  end.

(** The same loop when computing a lane may fail. *)
Fixpoint mkM (w : Z) (n : nat) (f : Z -> res Z) : res Z :=
  match n with
  | O => Ok 0
  | S k => let* r := mkM w k f in
           let* x := f (Z.of_nat k) in
           Ok (r + (x mod 2 ^ w) * 2 ^ (w * Z.of_nat k))
  end.

(** All lanes of a register, in order. *)
Definition elems (w : Z) (n : nat) (r : Z) : list Z :=
  map (fun i => lane w (Z.of_nat i) r) (seq 0 n).

(** Number of w-bit lanes in R bits. *)
Definition nl (w R : Z) : nat := Z.to_nat (R / w).

Definition reg (R r : Z) : Prop := 0 <= r < 2 ^ R.

(** ------------------------------------------------------------------ *)
(** Lemmas *)

Lemma pow2_pos w : 0 <= w -> 0 < 2 ^ w.
Proof. intros. apply Z.pow_pos_nonneg; lia. Qed.

Lemma wrap_range w x : 0 <= w -> 0 <= wrap w x < 2 ^ w.
Proof. intros. apply Z.mod_pos_bound, pow2_pos; auto. Qed.

Lemma wrap_small w x : 0 <= x < 2 ^ w -> wrap w x = x.
Proof. intros. apply Z.mod_small; auto. Qed.

Lemma wrap_wrap w x : wrap w (wrap w x) = wrap w x.
Proof. unfold wrap. apply Zmod_mod. Qed.

Lemma testbit_wrap w x k : 0 <= w -> 0 <= k ->
  Z.testbit (wrap w x) k = (k <? w) && Z.testbit x k.
Proof.
  intros Hw Hk. unfold wrap.
  destruct (Z.ltb_spec k w).
  - rewrite Z.mod_pow2_bits_low by lia. reflexivity.
  - rewrite Z.mod_pow2_bits_high by lia. reflexivity.
Qed.

Lemma testbit_high w x k : 0 <= x < 2 ^ w -> 0 <= w <= k -> Z.testbit x k = false.
Proof.
  intros Hx Hk.
  rewrite <- (wrap_small w x Hx). rewrite testbit_wrap by lia.
  destruct (Z.ltb_spec k w); [lia|reflexivity].
Qed.

Lemma testbit_lane w i r k : 0 <= w -> 0 <= i -> 0 <= k ->
  Z.testbit (lane w i r) k = (k <? w) && Z.testbit r (w * i + k).
Proof.
  intros. unfold lane. fold (wrap w (Z.shiftr r (w * i))). rewrite testbit_wrap by lia.
  destruct (k <? w); [cbn|reflexivity].
  rewrite Z.shiftr_spec by lia. f_equal. lia.
Qed.

Lemma lane_range w i r : 0 <= w -> 0 <= lane w i r < 2 ^ w.
Proof. intros. apply Z.mod_pos_bound, pow2_pos; auto. Qed.

Lemma wrap_lane w i r : wrap w (lane w i r) = lane w i r.
Proof. unfold wrap, lane. apply Zmod_mod. Qed.

(** Two values below 2^w agreeing on the bits below w are equal. *)
Lemma bits_ext w x y : 0 <= w -> 0 <= x < 2 ^ w -> 0 <= y < 2 ^ w ->
  (forall k, 0 <= k < w -> Z.testbit x k = Z.testbit y k) -> x = y.
Proof.
  intros Hw Hx Hy H. apply Z.bits_inj'. intros k Hk.
  destruct (Z.ltb_spec k w).
  - apply H; lia.
  - rewrite !(testbit_high w) by lia. reflexivity.
Qed.

Lemma mk_range w n f : 0 <= w -> 0 <= mk w n f < 2 ^ (w * Z.of_nat n).
Proof.
  intros Hw. induction n as [|k IH]; cbn [mk].
  - rewrite Z.mul_0_r. cbn. lia.
  - pose proof (wrap_range w (f (Z.of_nat k)) Hw) as Hx. unfold wrap in Hx.
    rewrite Nat2Z.inj_succ.
    replace (w * Z.succ (Z.of_nat k)) with (w + w * Z.of_nat k) by lia.
    rewrite Z.pow_add_r by lia.
    assert (0 < 2 ^ (w * Z.of_nat k)) by (apply pow2_pos; lia). nia.
Qed.

Lemma testbit_add_disjoint x y m k : 0 <= m -> 0 <= k -> 0 <= x < 2 ^ m -> 0 <= y ->
  Z.testbit (x + y * 2 ^ m) k = if k <? m then Z.testbit x k else Z.testbit y (k - m).
Proof.
  intros Hm Hk Hx Hy.
  destruct (Z.ltb_spec k m).
  - rewrite <- (Z.mod_pow2_bits_low (x + y * 2 ^ m) m k) by lia.
    rewrite Z.mod_add by lia. rewrite Z.mod_small by lia. reflexivity.
  - replace k with ((k - m) + m) at 1 by lia.
    rewrite <- Z.div_pow2_bits by lia.
    rewrite Z.div_add by lia. rewrite Z.div_small by lia. reflexivity.
Qed.

Lemma testbit_mk w n f k : 0 < w -> 0 <= k ->
  Z.testbit (mk w n f) k =
  (k <? w * Z.of_nat n) && Z.testbit (f (k / w)) (k mod w).
Proof.
  intros Hw. revert k. induction n as [|m IH]; intros k Hk; cbn [mk].
  - rewrite Z.bits_0. destruct (Z.ltb_spec k (w * Z.of_nat 0)); [lia|reflexivity].
  - pose proof (mk_range w m f ltac:(lia)) as Hr.
    pose proof (wrap_range w (f (Z.of_nat m)) ltac:(lia)) as Hx.
    fold (wrap w (f (Z.of_nat m))).
    rewrite testbit_add_disjoint by lia.
    destruct (Z.ltb_spec k (w * Z.of_nat m)).
    + rewrite IH by lia.
      destruct (Z.ltb_spec k (w * Z.of_nat m)); [|lia].
      destruct (Z.ltb_spec k (w * Z.of_nat (S m))); [reflexivity|lia].
    + rewrite testbit_wrap by lia.
      destruct (Z.ltb_spec (k - w * Z.of_nat m) w);
      destruct (Z.ltb_spec k (w * Z.of_nat (S m))); try lia; cbn [andb]; try reflexivity.
      assert (k / w = Z.of_nat m) as ->.
      { symmetry. apply (Z.div_unique k w _ (k - w * Z.of_nat m)); lia. }
      assert (k mod w = k - w * Z.of_nat m) as ->; [|reflexivity].
      symmetry. apply (Z.mod_unique k w (Z.of_nat m)); lia.
Qed.

Lemma lane_mk w n f i : 0 < w -> 0 <= i < Z.of_nat n ->
  lane w i (mk w n f) = wrap w (f i).
Proof.
  intros Hw Hi.
  apply (bits_ext w); try lia.
  - apply lane_range; lia.
  - apply wrap_range; lia.
  - intros k Hk. rewrite testbit_lane, testbit_wrap, testbit_mk by nia.
    destruct (Z.ltb_spec k w); [|lia].
    destruct (Z.ltb_spec (w * i + k) (w * Z.of_nat n)); [|nia]. cbn [andb].
    assert ((w * i + k) / w = i) as ->.
    { symmetry. apply (Z.div_unique (w*i+k) w _ k); lia. }
    assert ((w * i + k) mod w = k) as ->; [|reflexivity].
    symmetry. apply (Z.mod_unique (w*i+k) w i); lia.
Qed.

Lemma mk_ext w n f g : (forall i, 0 <= i < Z.of_nat n -> wrap w (f i) = wrap w (g i)) ->
  mk w n f = mk w n g.
Proof.
  induction n as [|k IH]; intros H; cbn [mk]; [reflexivity|].
  rewrite IH by (intros; apply H; lia).
  pose proof (H (Z.of_nat k) ltac:(lia)) as E. unfold wrap in E. rewrite E. reflexivity.
Qed.

Lemma mkM_ok w n f g : (forall i, 0 <= i < Z.of_nat n -> f i = Ok (g i)) ->
  mkM w n f = Ok (mk w n g).
Proof.
  induction n as [|k IH]; intros H; cbn [mk mkM]; [reflexivity|].
  rewrite IH by (intros; apply H; lia). cbn [bind].
  rewrite H by lia. reflexivity.
Qed.

(** Registers are determined by their lanes. *)
Lemma reg_ext w n x y : 0 < w -> reg (w * Z.of_nat n) x -> reg (w * Z.of_nat n) y ->
  (forall i, 0 <= i < Z.of_nat n -> lane w i x = lane w i y) -> x = y.
Proof.
  unfold reg. intros Hw Hx Hy H.
  apply (bits_ext (w * Z.of_nat n)); try lia.
  intros k Hk.
  assert (Hi : 0 <= k / w < Z.of_nat n).
  { split; [apply Z.div_pos; lia|]. apply Z.div_lt_upper_bound; lia. }
  pose proof (Z.mod_pos_bound k w Hw).
  assert (Ek : k = w * (k / w) + k mod w) by (apply Z.div_mod; lia).
  rewrite Ek.
  pose proof (f_equal (fun z => Z.testbit z (k mod w)) (H _ Hi)) as E. cbn beta in E.
  rewrite !testbit_lane in E by lia.
  destruct (Z.ltb_spec (k mod w) w); [|lia]. exact E.
Qed.

Lemma mk_lanes w n r : 0 < w -> reg (w * Z.of_nat n) r ->
  mk w n (fun i => lane w i r) = r.
Proof.
  intros Hw Hr. apply (reg_ext w n); auto.
  - apply mk_range; lia.
  - intros i Hi. rewrite lane_mk by lia. apply wrap_lane.
Qed.

(** Lanes of lanes: a w-bit lane inside a (w*k)-bit lane. *)
Lemma lane_sub w k i r : 0 < w -> 0 < k -> 0 <= i ->
  lane w i r = lane w (i mod k) (lane (w * k) (i / k) r).
Proof.
  intros Hw Hk Hi.
  pose proof (Z.mod_pos_bound i k Hk).
  pose proof (Z.div_pos i k Hi Hk).
  pose proof (Z.div_mod i k ltac:(lia)).
  apply (bits_ext w); try lia; try (apply lane_range; lia).
  intros b Hb.
  rewrite (testbit_lane w i) by lia.
  rewrite (testbit_lane w (i mod k)) by lia.
  destruct (Z.ltb_spec b w); [|lia]. cbn [andb].
  rewrite testbit_lane by nia.
  destruct (Z.ltb_spec (w * (i mod k) + b) (w * k)); [|nia]. cbn [andb].
  f_equal. nia.
Qed.

Lemma lane_lane w k i j r : 0 < w -> 0 < k -> 0 <= i -> 0 <= j < k ->
  lane w j (lane (w * k) i r) = lane w (i * k + j) r.
Proof.
  intros. rewrite (lane_sub w k (i * k + j)) by nia.
  assert ((i * k + j) / k = i) as ->.
  { symmetry. apply (Z.div_unique (i*k+j) k _ j); lia. }
  assert ((i * k + j) mod k = j) as ->; [|reflexivity].
  symmetry. apply (Z.mod_unique (i*k+j) k i); lia.
Qed.

Lemma lane_0 w r : 0 < w -> lane w 0 r = wrap w r.
Proof. intros. unfold lane, wrap. rewrite Z.mul_0_r, Z.shiftr_0_r. reflexivity. Qed.

Lemma lane_of_zero w i : lane w i 0 = 0.
Proof. unfold lane. rewrite Z.shiftr_0_l. apply Zmod_0_l. Qed.

Lemma lane_div w i r : 0 <= w * i -> lane w i r = (r / 2 ^ (w * i)) mod 2 ^ w.
Proof. intros. unfold lane. rewrite Z.shiftr_div_pow2 by lia. reflexivity. Qed.

(** A double-width lane is its low half plus its high half. *)
Lemma lane_double w i r : 0 < w -> 0 <= i ->
  lane (w * 2) i r = lane w (2 * i) r + lane w (2 * i + 1) r * 2 ^ w.
Proof.
  intros Hw Hi.
  pose proof (lane_range w (2 * i) r ltac:(lia)).
  pose proof (lane_range w (2 * i + 1) r ltac:(lia)).
  apply (bits_ext (w * 2)); try lia.
  - apply lane_range; lia.
  - replace (w * 2) with (w + w) by lia. rewrite Z.pow_add_r by lia. nia.
  - intros k Hk. rewrite testbit_add_disjoint by lia.
    rewrite testbit_lane by lia.
    destruct (Z.ltb_spec k (w * 2)); [|lia]. cbn [andb].
    destruct (Z.ltb_spec k w).
    + rewrite testbit_lane by lia. destruct (Z.ltb_spec k w); [|lia]. cbn [andb]. f_equal. lia.
    + rewrite testbit_lane by lia. destruct (Z.ltb_spec (k - w) w); [|lia]. cbn [andb]. f_equal. lia.
Qed.

(** Bitwise operations act on lanes of every width. *)
Lemma lane_land w i a b : 0 <= w -> 0 <= i ->
  lane w i (Z.land a b) = Z.land (lane w i a) (lane w i b).
Proof.
  intros. apply Z.bits_inj'. intros k Hk.
  rewrite Z.land_spec, !testbit_lane, Z.land_spec by lia.
  destruct (k <? w); cbn; reflexivity.
Qed.
Lemma lane_lor w i a b : 0 <= w -> 0 <= i ->
  lane w i (Z.lor a b) = Z.lor (lane w i a) (lane w i b).
Proof.
  intros. apply Z.bits_inj'. intros k Hk.
  rewrite Z.lor_spec, !testbit_lane, Z.lor_spec by lia.
  destruct (k <? w); cbn; reflexivity.
Qed.
Lemma lane_lxor w i a b : 0 <= w -> 0 <= i ->
  lane w i (Z.lxor a b) = Z.lxor (lane w i a) (lane w i b).
Proof.
  intros. apply Z.bits_inj'. intros k Hk.
  rewrite Z.lxor_spec, !testbit_lane, Z.lxor_spec by lia.
  destruct (k <? w); cbn; reflexivity.
Qed.
Lemma lane_ldiff w i a b : 0 <= w -> 0 <= i ->
  lane w i (Z.ldiff a b) = Z.ldiff (lane w i a) (lane w i b).
Proof.
  intros. apply Z.bits_inj'. intros k Hk.
  rewrite Z.ldiff_spec, !testbit_lane, Z.ldiff_spec by lia.
  destruct (k <? w); cbn; reflexivity.
Qed.

Lemma land_reg R a b : 0 <= R -> reg R a -> reg R b -> reg R (Z.land a b).
Proof.
  unfold reg. intros HR Ha Hb. rewrite <- (wrap_small R a Ha).
  assert (Z.land (wrap R a) b = wrap R (Z.land a b)) as ->.
  { apply Z.bits_inj'. intros k Hk. rewrite Z.land_spec, !testbit_wrap, Z.land_spec by lia.
    destruct (k <? R); reflexivity. }
  apply wrap_range; lia.
Qed.
Lemma lor_reg R a b : 0 <= R -> reg R a -> reg R b -> reg R (Z.lor a b).
Proof.
  unfold reg. intros HR Ha Hb. rewrite <- (wrap_small R a Ha), <- (wrap_small R b Hb).
  assert (Z.lor (wrap R a) (wrap R b) = wrap R (Z.lor a b)) as ->.
  { apply Z.bits_inj'. intros k Hk. rewrite Z.lor_spec, !testbit_wrap, Z.lor_spec by lia.
    destruct (k <? R); reflexivity. }
  apply wrap_range; lia.
Qed.
Lemma lxor_reg R a b : 0 <= R -> reg R a -> reg R b -> reg R (Z.lxor a b).
Proof.
  unfold reg. intros HR Ha Hb. rewrite <- (wrap_small R a Ha), <- (wrap_small R b Hb).
  assert (Z.lxor (wrap R a) (wrap R b) = wrap R (Z.lxor a b)) as ->.
  { apply Z.bits_inj'. intros k Hk. rewrite Z.lxor_spec, !testbit_wrap, Z.lxor_spec by lia.
    destruct (k <? R); reflexivity. }
  apply wrap_range; lia.
Qed.
Lemma ldiff_reg R a b : 0 <= R -> reg R a -> reg R (Z.ldiff a b).
Proof.
  unfold reg. intros HR Ha. rewrite <- (wrap_small R a Ha).
  assert (Z.ldiff (wrap R a) b = wrap R (Z.ldiff a b)) as ->.
  { apply Z.bits_inj'. intros k Hk. rewrite Z.ldiff_spec, !testbit_wrap, Z.ldiff_spec by lia.
    destruct (k <? R); reflexivity. }
  apply wrap_range; lia.
Qed.

(** elems *)
Lemma elems_length w n r : length (elems w n r) = n.
Proof. unfold elems. rewrite map_length, seq_length. reflexivity. Qed.

Lemma nth_elems w n r i d : (i < n)%nat -> nth i (elems w n r) d = lane w (Z.of_nat i) r.
Proof.
  intros. unfold elems.
  rewrite (nth_indep _ d (lane w (Z.of_nat 0) r)) by (rewrite map_length, seq_length; lia).
  rewrite (map_nth (fun i => lane w (Z.of_nat i) r)).
  rewrite seq_nth by lia. reflexivity.
Qed.

Lemma elems_mk w n f : 0 < w -> elems w n (mk w n f) = map (fun i => wrap w (f (Z.of_nat i))) (seq 0 n).
Proof.
  intros. unfold elems. apply map_ext_in. intros i Hi. apply in_seq in Hi.
  apply lane_mk; lia.
Qed.

(** signed view *)
Lemma sgn_range w x : 0 < w -> - 2 ^ (w - 1) <= sgn w x < 2 ^ (w - 1).
Proof.
  intros. unfold sgn. pose proof (wrap_range w x ltac:(lia)) as Hr. unfold wrap in Hr.
  assert (2 ^ w = 2 * 2 ^ (w - 1)).
  { rewrite <- Z.pow_succ_r by lia. f_equal. lia. }
  destruct (Z.ltb_spec (x mod 2 ^ w) (2 ^ (w - 1))); lia.
Qed.

Lemma wrap_sgn w x : 0 < w -> wrap w (sgn w x) = wrap w x.
Proof.
  intros. unfold sgn, wrap.
  destruct (Z.ltb_spec (x mod 2 ^ w) (2 ^ (w - 1))).
  - apply Zmod_mod.
  - replace (x mod 2 ^ w - 2 ^ w) with (x mod 2 ^ w + (-1) * 2 ^ w) by lia.
    rewrite Z_mod_plus_full. apply Zmod_mod.
Qed.

Lemma sgn_wrap w x : sgn w (wrap w x) = sgn w x.
Proof. unfold sgn, wrap. rewrite Zmod_mod. reflexivity. Qed.

Lemma sgn_id w x : 0 < w -> - 2 ^ (w - 1) <= x < 2 ^ (w - 1) -> sgn w x = x.
Proof.
  intros Hw Hx. unfold sgn.
  assert (2 ^ w = 2 * 2 ^ (w - 1)).
  { rewrite <- Z.pow_succ_r by lia. f_equal. lia. }
  assert (0 < 2 ^ (w - 1)) by (apply pow2_pos; lia).
  destruct (Z.ltb_spec x 0).
  - assert (x mod 2 ^ w = x + 2 ^ w) as ->.
    { symmetry. apply (Z.mod_unique x (2 ^ w) (-1)); lia. }
    destruct (Z.ltb_spec (x + 2 ^ w) (2 ^ (w - 1))); lia.
  - rewrite Z.mod_small by lia.
    destruct (Z.ltb_spec x (2 ^ (w - 1))); lia.
Qed.

Lemma wrap_add_l w x y : wrap w (wrap w x + y) = wrap w (x + y).
Proof. unfold wrap. apply Zplus_mod_idemp_l. Qed.
Lemma wrap_add_r w x y : wrap w (x + wrap w y) = wrap w (x + y).
Proof. unfold wrap. apply Zplus_mod_idemp_r. Qed.
Lemma wrap_sub_l w x y : wrap w (wrap w x - y) = wrap w (x - y).
Proof. unfold wrap. apply Zminus_mod_idemp_l. Qed.
Lemma wrap_sub_r w x y : wrap w (x - wrap w y) = wrap w (x - y).
Proof. unfold wrap. apply Zminus_mod_idemp_r. Qed.
Lemma wrap_mul_l w x y : wrap w (wrap w x * y) = wrap w (x * y).
Proof. unfold wrap. apply Zmult_mod_idemp_l. Qed.
Lemma wrap_mul_r w x y : wrap w (x * wrap w y) = wrap w (x * y).
Proof. unfold wrap. apply Zmult_mod_idemp_r. Qed.

Lemma eq_mod_wrap w x y : wrap w x = wrap w y <-> exists k, x = y + k * 2 ^ w.
Proof.
  unfold wrap. split.
  - intros H. exists (x / 2 ^ w - y / 2 ^ w).
    destruct (Z.eq_dec (2 ^ w) 0) as [E|E].
    + rewrite E in *. rewrite !Zmod_0_r in H. nia.
    + pose proof (Z.div_mod x (2 ^ w) E). pose proof (Z.div_mod y (2 ^ w) E). nia.
  - intros [k ->]. apply Z_mod_plus_full.
Qed.

Lemma wrap_0 w : wrap w 0 = 0.
Proof. apply Zmod_0_l. Qed.

#[global] Opaque lane mk.
#[global] Arguments wrap : simpl never.
#[global] Arguments sgn : simpl never.
