(** Memory accesses: the machine/language side of loads and stores.  Trusted definitions
    (instruction semantics), plus their basic theory. *)
From Verif Require Export Base.Isa Spec.Mem.

Definition okb (m : mem) (q : Z) : bool := match m q with Some _ => true | None => false end.
Fixpoint okn (m : mem) (p : Z) (n : nat) : bool :=
  match n with O => true | S n => okb m p && okn m (p + 1) n end.
(** the R bits at p, lowest byte first *)
Definition view (R p : Z) (m : mem) : Z := pack 8 R (fun i => byte_at m (p + i)).
Definition rd (R p : Z) (m : mem) : res Z :=
  if okn m p (Z.to_nat (R / 8)) then Ok (view R p m) else UB.
(** write [f 0 .. f (n-1)] at p; [None] leaves the byte alone *)
Definition put (n p : Z) (f : Z -> option Z) (m : mem) : mem := fun q =>
  if (p <=? q) && (q <? p + n) then match f (q - p) with Some b => Some b | None => m q end else m q.
Fixpoint okf (m : mem) (p : Z) (f : Z -> option Z) (i : Z) (n : nat) : bool :=
  match n with
  | O => true
  | S n => (match f i with Some _ => okb m (p + i) | None => true end) && okf m p f (i + 1) n
  end.
Definition wr (n p : Z) (f : Z -> option Z) (m : mem) : res mem :=
  if okf m p f 0 (Z.to_nat n) then Ok (put n p f m) else UB.
(** the bytes of a register, of those w-bit lanes that are selected *)
Definition sel_bytes (w : Z) (sel : Z -> bool) (a : Z) : Z -> option Z :=
  fun i => if sel (i / (w / 8)) then Some (lane 8 i a) else None.
Definition wr_reg (R p a : Z) (m : mem) : res mem := wr (R / 8) p (sel_bytes 8 (fun _ => true) a) m.

Definition aligned (n p : Z) : bool := p mod n =? 0.
Definition require {X} (b : bool) (r : res X) : res X := if b then r else UB.

(** [_mm*_load_*], [_mm*_store_*], [_mm*_stream_*] fault on misaligned addresses; the
    [loadu]/[storeu] forms, [vec_vsx_ld/st] and [__msa_ld/st] do not. *)
Definition mm_load R p m := require (aligned (R / 8) p) (rd R p m).
Definition mm_store R p a m := require (aligned (R / 8) p) (wr_reg R p a m).
Definition mm_loadu := rd.
Definition mm_storeu := wr_reg.
Definition vec_vsx_ld := rd 128.
Definition vec_vsx_st a p := wr_reg 128 p a.
Definition msa_ld := rd 128.
Definition msa_st a p := wr_reg 128 p a.
(** [vld1q_uN]/[vst1q_uN] need the alignment of an element *)
Definition vld1q_mem w p m := require (aligned (w / 8) p) (rd 128 p m).
Definition vst1q_mem w p a m := require (aligned (w / 8) p) (wr_reg 128 p a m).
(** [vst1q_lane_uN(p, a, i)] and plain element stores [*(T* )p = x] *)
Definition st_el w p x m := require (aligned (w / 8) p) (wr_reg w p x m).
Definition ld_el w p m := require (aligned (w / 8) p) (rd w p m).
Definition vst1q_lane w p a i m := st_el w p (lane w i a) m.
(** [vec_ld(off, p)], [vec_st(v, off, p)] ([vec_stl] too) ignore the low 4 address bits *)
Definition blk q := q - q mod 16.
Definition vec_ld off p m := rd 128 (blk (p + off)) m.
Definition vec_st a off p m := wr_reg 128 (blk (p + off)) a m.
(** [vec_lvsl(0, p)], [vec_lvsr(0, p)] as seen in element order (the compiler reverses the
    map on little-endian targets so that the same source works) *)
Definition vec_lvsl p := pack 8 128 (fun i => p mod 16 + i).
Definition vec_lvsr p := pack 8 128 (fun i => 16 - p mod 16 + i).
(** [vec_slo]/[vec_sro]: shift the 128-bit value by a number of bytes, from bits 3..6 of the
    count *)
Definition vec_slo a c := (a * 2 ^ (8 * (c / 8 mod 16))) mod 2 ^ 128.
Definition vec_sro a c := a / 2 ^ (8 * (c / 8 mod 16)).
(** [_mm*_maskstore_*]: lanes whose mask lane has the top bit set; no fault elsewhere.
    [_mm*_mask_store_*]: lanes whose mask bit is set; address aligned to the register. *)
Definition mm_maskstore w R p k a m :=
  wr (R / 8) p (sel_bytes w (fun i => Z.testbit (lane w i k) (w - 1)) a) m.
Definition mm_mask_store w R p k a m :=
  require (aligned (R / 8) p) (wr (R / 8) p (sel_bytes w (Z.testbit k) a) m).
(** [_mm_store_sd] *)
Definition mm_store_sd p a m := wr_reg 64 p (lane 64 0 a) m.

(** * Theory *)
Lemma acc_okb m p n q : accessible m p n -> p <= q < p + n -> okb m q = true.
Proof. intros H Hq. unfold okb. destruct (H q Hq) as (b & -> & _). reflexivity. Qed.
Lemma acc_okn m n : forall p, accessible m p (Z.of_nat n) -> okn m p n = true.
Proof.
  induction n; intros p H; cbn [okn]; [reflexivity|].
  rewrite (acc_okb m p (Z.of_nat (S n))) by (auto; lia). cbn [andb]. apply IHn.
  intros q Hq. apply H. lia.
Qed.
Lemma okf_ok m p f n : forall i, 0 <= i -> (forall j, i <= j < i + Z.of_nat n -> okb m (p + j) = true) ->
  okf m p f i n = true.
Proof.
  induction n; intros i Hi H; cbn [okf]; auto. apply andb_true_iff. split.
  - destruct (f i) eqn:E; auto. apply H; lia.
  - apply IHn; [lia|]. intros j Hj. apply H. lia.
Qed.
Lemma rd_ok R p m : 0 <= R / 8 -> accessible m p (R / 8) -> rd R p m = Ok (view R p m).
Proof.
  intros HR H. unfold rd. rewrite acc_okn; auto. rewrite Z2Nat.id by auto. exact H.
Qed.
Lemma wr_acc n p f m : accessible m p n -> wr n p f m = Ok (put n p f m).
Proof.
  intros H. unfold wr. rewrite okf_ok; auto; [lia|]. intros j Hj. apply (acc_okb _ _ _ _ H). lia.
Qed.
Lemma wr_reg_ok R p a m : accessible m p (R / 8) ->
  wr_reg R p a m = Ok (put (R / 8) p (sel_bytes 8 (fun _ => true) a) m).
Proof. apply wr_acc. Qed.

Lemma acc_sub m p n q k : accessible m p n -> p <= q -> q + k <= p + n -> accessible m q k.
Proof. intros H H1 H2 x Hx. apply H. lia. Qed.
Lemma acc_ext m m' p n : accessible m p n -> (forall q, m' q = m q) -> accessible m' p n.
Proof. intros H E q Hq. rewrite E. auto. Qed.
Lemma acc_put m p n k q w sel a : accessible m p n -> accessible (put k q (sel_bytes w sel a) m) p n.
Proof.
  intros H x Hx. unfold put, sel_bytes. destruct (_ && _); [|auto]. destruct (sel _); [|auto].
  eexists. split; [reflexivity|]. change 256 with (2 ^ 8). apply lane_range. lia.
Qed.
Lemma acc_byte m p n q : accessible m p n -> p <= q < p + n -> m q = Some (byte_at m q) /\ 0 <= byte_at m q < 256.
Proof. intros H Hq. unfold byte_at. destruct (H q Hq) as (b & -> & Hb). auto. Qed.

Lemma number_ext k m m' : forall p p', (forall i, 0 <= i < Z.of_nat k -> byte_at m (p + i) = byte_at m' (p' + i)) ->
  number k m p = number k m' p'.
Proof.
  induction k; intros p p' H; [reflexivity|]. cbn [number]. f_equal.
  - specialize (H 0 ltac:(lia)). rewrite !Z.add_0_r in H. exact H.
  - f_equal. apply IHk. intros i Hi. specialize (H (i + 1) ltac:(lia)).
    replace (p + 1 + i) with (p + (i + 1)) by lia. replace (p' + 1 + i) with (p' + (i + 1)) by lia. exact H.
Qed.
(** a number is the packing of its bytes *)
Lemma number_mk k m : forall p, accessible m p (Z.of_nat k) -> number k m p = mk 8 k (fun i => byte_at m (p + i)).
Proof.
  assert (G : forall k p, number (S k) m p = number k m p + byte_at m (p + Z.of_nat k) * 256 ^ Z.of_nat k).
  { induction k0; intros p.
    - change (byte_at m p + 256 * 0 = 0 + byte_at m (p + 0) * 1). replace (p + 0) with p by lia. lia.
    - cbn [number] in IHk0 |- *. rewrite IHk0.
      replace (p + 1 + Z.of_nat k0) with (p + Z.of_nat (S k0)) by lia.
      replace (Z.of_nat (S k0)) with (Z.of_nat k0 + 1) by lia. rewrite Z.pow_add_r by lia. change (256 ^ 1) with 256. ring. }
  induction k; intros p Ha; [reflexivity|]. rewrite G, IHk by (apply (acc_sub _ _ _ _ _ Ha); lia). cbn [mk].
  change (2 ^ 8) with 256. rewrite (Z.mod_small (byte_at m _) 256) by (eapply acc_byte; [eauto|lia]).
  rewrite Z.pow_mul_r by lia. change (2 ^ 8) with 256. ring.
Qed.
Lemma wok_div w R : wok w R = true -> wok 8 w = true -> 0 < w / 8 /\ R / 8 = R / w * (w / 8) /\ w = 8 * (w / 8).
Proof.
  intros H1 H3. destruct (wok_spec _ _ H1) as (Hw & HR & E & En), (wok_spec _ _ H3) as (_ & _ & E3 & En3).
  split; [lia|split; [|lia]]. rewrite E at 1. rewrite E3 at 1.
  replace (8 * (w / 8) * (R / w)) with (R / w * (w / 8) * 8) by ring. apply Z.div_mul. lia.
Qed.
Lemma lane_view w R p m i : wok w R = true -> wok 8 R = true -> wok 8 w = true -> accessible m p (R / 8) -> 0 <= i < R / w ->
  lane w i (view R p m) = number (Z.to_nat (w / 8)) m (p + i * (w / 8)).
Proof.
  intros H1 H2 H3 Ha Hi. destruct (wok_spec _ _ H1) as (Hw & HR & E & En).
  destruct (wok_div _ _ H1 H3) as (Hk & Rd & E3).
  rewrite number_mk by (apply (acc_sub _ _ _ _ _ Ha); nia).
  change (Z.to_nat (w / 8)) with (nl 8 w). change (mk 8 (nl 8 w) ?f) with (pack 8 w f).
  apply (reg_lanes 8 w _ _ H3); [apply lane_range; lia|apply (pack_reg 8 w _ H3)|].
  intros j Hj. rewrite lane_pack by auto. unfold view.
  replace w with (8 * (w / 8)) at 1 by lia. rewrite lane_lane by lia.
  rewrite lane_pack by (auto; nia). f_equal. f_equal. lia.
Qed.
Lemma view_reg R p m : wok 8 R = true -> reg R (view R p m).
Proof. apply pack_reg. Qed.
Lemma byte_view R p m j : wok 8 R = true -> accessible m p (R / 8) -> 0 <= j < R / 8 -> lane 8 j (view R p m) = byte_at m (p + j).
Proof.
  intros H Ha Hj. unfold view. rewrite lane_pack by auto. apply wrap_small. change (2 ^ 8) with 256.
  eapply acc_byte; [eauto|lia].
Qed.
Lemma elems_view w R p m : wok w R = true -> wok 8 R = true -> wok 8 w = true -> accessible m p (R / 8) ->
  elems w (nl w R) (view R p m) = array w p (nl w R) m.
Proof.
  intros H1 H2 H3 Ha. destruct (wok_spec _ _ H1) as (Hw & HR & E & En).
  unfold elems, array. apply map_ext_in. intros i Hi. apply in_seq in Hi. apply lane_view; auto. lia.
Qed.

Lemma array_app w p n1 n2 m : array w p (n1 + n2) m = array w p n1 m ++ array w (p + Z.of_nat n1 * (w / 8)) n2 m.
Proof.
  unfold array. rewrite seq_app, map_app. f_equal. cbn [Nat.add].
  replace (seq n1 n2) with (map (fun i => (n1 + i)%nat) (seq 0 n2)).
  2:{ replace (seq n1 n2) with (seq (n1 + 0) n2) by (f_equal; lia). clear. generalize 0%nat. induction n2; intros k; cbn; auto. f_equal. rewrite IHn2. f_equal. lia. }
  rewrite map_map. apply map_ext. intros i. f_equal. lia.
Qed.
Lemma array_len w p n m : length (array w p n m) = n.
Proof. unfold array. rewrite map_length, seq_length. reflexivity. Qed.
Lemma array_ext w p n m m' : 0 <= w / 8 -> (forall q, p <= q < p + Z.of_nat n * (w / 8) -> byte_at m q = byte_at m' q) ->
  array w p n m = array w p n m'.
Proof.
  intros Hw H. unfold array. apply map_ext_in. intros i Hi. apply in_seq in Hi. apply number_ext.
  intros j Hj. apply H. rewrite Z2Nat.id in Hj by auto. nia.
Qed.

(** reading back what [put] wrote *)
Lemma number_put w R p sel a m m' i : wok w R = true -> wok 8 w = true -> accessible m p (R / 8) ->
  (forall q, m' q = put (R / 8) p (sel_bytes w sel a) m q) -> 0 <= i < R / w ->
  number (Z.to_nat (w / 8)) m' (p + i * (w / 8)) =
  if sel i then lane w i a else number (Z.to_nat (w / 8)) m (p + i * (w / 8)).
Proof.
  intros H1 H3 Ha Hm Hi. destruct (wok_spec _ _ H1) as (Hw & HR & E & En).
  destruct (wok_div _ _ H1 H3) as (Hk & Rd & E3).
  assert (B : forall j, 0 <= j < w / 8 -> byte_at m' (p + i * (w / 8) + j) =
              if sel i then lane 8 j (lane w i a) else byte_at m (p + i * (w / 8) + j)).
  { intros j Hj. unfold byte_at. rewrite Hm. unfold put.
    replace ((p <=? p + i * (w / 8) + j) && (p + i * (w / 8) + j <? p + R / 8)) with true
      by (symmetry; apply andb_true_iff; split; [apply Z.leb_le|apply Z.ltb_lt]; nia).
    unfold sel_bytes. replace (p + i * (w / 8) + j - p) with (i * (w / 8) + j) by lia.
    replace ((i * (w / 8) + j) / (w / 8)) with i by (rewrite Z.div_add_l, Z.div_small by lia; lia).
    destruct (sel i); [|reflexivity].
    replace w with (8 * (w / 8)) at 2 by lia. rewrite lane_lane by lia. reflexivity. }
  destruct (sel i) eqn:Es.
  - rewrite number_mk.
    2:{ apply (acc_sub m' p (R / 8)); [|nia|rewrite Z2Nat.id; nia].
        apply (acc_ext (put (R / 8) p (sel_bytes w sel a) m)); auto. apply acc_put. auto. }
    change (Z.to_nat (w / 8)) with (nl 8 w). change (mk 8 (nl 8 w) ?f) with (pack 8 w f).
    apply (reg_lanes 8 w _ _ H3); [apply (pack_reg 8 w _ H3)|apply lane_range; lia|].
    intros j Hj. rewrite lane_pack, B by auto. rewrite wrap_lane. reflexivity.
  - apply number_ext. intros j Hj. rewrite Z2Nat.id in Hj by lia. apply B. auto.
Qed.
Lemma array_put w R p sel a m m' : wok w R = true -> wok 8 w = true -> accessible m p (R / 8) ->
  (forall q, m' q = put (R / 8) p (sel_bytes w sel a) m q) ->
  array w p (nl w R) m' =
  map (fun i => if sel (Z.of_nat i) then lane w (Z.of_nat i) a
                else number (Z.to_nat (w / 8)) m (p + Z.of_nat i * (w / 8))) (seq 0 (nl w R)).
Proof.
  intros H1 H3 Ha Hm. destruct (wok_spec _ _ H1) as (Hw & HR & E & En).
  unfold array. apply map_ext_in. intros i Hi. apply in_seq in Hi. apply (number_put w R); auto. lia.
Qed.
Lemma only_put n p w sel a m m' : accessible m p n -> (forall q, m' q = put n p (sel_bytes w sel a) m q) -> only_changes p n m m'.
Proof.
  intros Ha Hm. split.
  - intros q Hq. rewrite Hm. unfold put. replace ((p <=? q) && (q <? p + n)) with false; auto.
    symmetry. apply andb_false_iff. rewrite Z.leb_gt, Z.ltb_ge. lia.
  - apply (acc_ext (put n p (sel_bytes w sel a) m)); auto. apply acc_put. auto.
Qed.
Lemma only_acc p n m m' q k : only_changes p n m m' -> accessible m q k -> accessible m' q k.
Proof.
  intros [H1 H2] Ha x Hx. destruct (Z_lt_dec x p); [rewrite H1 by lia; auto|].
  destruct (Z_le_dec (p + n) x); [rewrite H1 by lia; auto|]. apply H2. lia.
Qed.
Lemma only_trans p n p' n' p'' n'' m m' m'' : only_changes p n m m' -> only_changes p' n' m' m'' ->
  accessible m p'' n'' ->
  p'' <= p -> p + n <= p'' + n'' -> p'' <= p' -> p' + n' <= p'' + n'' -> only_changes p'' n'' m m''.
Proof.
  intros O1 O2 Ha L1 L2 L3 L4. split.
  - intros q Hq. rewrite (proj1 O2), (proj1 O1) by lia. reflexivity.
  - apply (only_acc _ _ _ _ _ _ O2). apply (only_acc _ _ _ _ _ _ O1). auto.
Qed.
Lemma only_refl p n m : accessible m p n -> only_changes p n m m.
Proof. split; intros; auto. Qed.
Lemma only_array p n m m' w q k : 0 <= w / 8 -> only_changes p n m m' ->
  q + Z.of_nat k * (w / 8) <= p \/ p + n <= q -> array w q k m' = array w q k m.
Proof.
  intros Hw [H _] Hd. apply array_ext; auto. intros x Hx. unfold byte_at. rewrite H by lia. reflexivity.
Qed.
