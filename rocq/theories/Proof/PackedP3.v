(** load_packedN and store_packedN of one register per vector, in terms of memory. *)
From Verif Require Export Proof.PackedP2 Proof.LoadStoreP4 Spec.Packed.

Definition deint (w R : Z) (N : nat) (p : Z) (m : mem) : list Z :=
  map (fun j => pack w R (fun i => number (Z.to_nat (w / 8)) m (p + (Z.of_nat N * i + Z.of_nat j) * (w / 8)))) (seq 0 N).
(** the interleaved elements as one long register *)
Definition inter (w R : Z) (l : list Z) : Z :=
  let N := Z.of_nat (length l) in
  pack w (R * N) (fun x => lane w (x / N) (nth (Z.to_nat (x mod N)) l 0)).
Definition views (R : Z) (N : nat) (p : Z) (m : mem) : list Z :=
  map (fun r => view R (p + Z.of_nat r * (R / 8)) m) (seq 0 N).

Lemma wok_mul w R N : wok w R = true -> 0 < N -> wok w (R * N) = true /\ R * N / w = R / w * N /\ R * N / 8 = R * N / 8.
Proof.
  intros H HN. destruct (wok_spec _ _ H) as (Hw & HR & E & En).
  assert (R * N / w = R / w * N) as D. { rewrite E at 1. replace (w * (R / w) * N) with (R / w * N * w) by ring. apply Z.div_mul. lia. }
  split; [|split; auto]. unfold wok. rewrite !andb_true_iff, !Z.ltb_lt, Z.eqb_eq. repeat split; try nia.
  rewrite E. replace (w * (R / w) * N) with (R / w * N * w) by ring. apply Z.mod_mul. lia.
Qed.
Lemma number_range k m p : accessible m p (Z.of_nat k) -> 0 <= number k m p < 2 ^ (8 * Z.of_nat k).
Proof.
  revert p. induction k; intros p H; cbn [number].
  - cbn. lia.
  - assert (accessible m (p + 1) (Z.of_nat k)) as H1 by (apply (acc_sub _ _ _ _ _ H); lia).
    specialize (IHk _ H1). destruct (acc_byte _ _ _ p H ltac:(lia)) as [_ Hb].
    replace (8 * Z.of_nat (S k)) with (8 * Z.of_nat k + 8) by lia. rewrite Z.pow_add_r by lia. change (2 ^ 8) with 256. lia.
Qed.

Section W.
  Variables (w R : Z).
  Hypotheses (W1 : wok w R = true) (W2 : wok 8 w = true).
  Let W3 : wok 8 R = true.
  Proof.
    destruct (wok_spec _ _ W1) as (Hw & HR & E & En), (wok_div _ _ W1 W2) as (Hk & Rd & E3).
    unfold wok. rewrite !andb_true_iff, !Z.ltb_lt, Z.eqb_eq. repeat split; try lia.
    rewrite E, E3. replace (8 * (w / 8) * (R / w)) with (w / 8 * (R / w) * 8) by ring.
    replace (8 * (w / 8) * (R / (8 * (w / 8)))) with (w / 8 * (R / (8 * (w / 8))) * 8) by ring. apply Z.mod_mul. lia.
  Qed.
  Lemma unpacked_views N p m : (0 < N)%nat -> accessible m p (Z.of_nat N * (R / 8)) ->
    unpacked w R (views R N p m) = deint w R N p m.
  Proof.
    intros HN Ha. unfold unpacked, views, deint. rewrite map_length, seq_length. unfold zrange. rewrite Nat2Z.id, map_map.
    destruct (wok_spec _ _ W1) as (Hw & HR & E & En), (wok_div _ _ W1 W2) as (Hk & Rd & E3).
    apply map_ext_in. intros j Hj. apply in_seq in Hj. unfold lsh. apply pack_ext; [exact W1|]. intros i Hi.
    set (n := R / w) in *. assert (0 < n) by nia.
    rewrite (Z.mod_small i n), (Z.div_small i n) by lia. unfold p_unpack. cbv zeta.
    set (x := Z.of_nat N * i + Z.of_nat j). assert (0 <= x < Z.of_nat N * n) as Hx by (unfold x; nia).
    assert (0 <= x / n < Z.of_nat N) as Hd by (split; [apply Z.div_pos; lia | apply Z.div_lt_upper_bound; nia]).
    pose proof (Z.mod_pos_bound x n ltac:(lia)) as Hm. pose proof (Z.div_mod x n ltac:(lia)) as D.
    rewrite (nth_map' _ _ _ 0%nat) by (rewrite seq_length; lia). rewrite seq_nth by lia. cbn [Nat.add]. rewrite Z2Nat.id by lia.
    rewrite lane_view; auto; try lia.
    - f_equal. f_equal. fold x. nia.
    - apply (acc_sub _ _ _ _ _ Ha); nia.
  Qed.
  Lemma null_load_packed_ok N p m : R = 128 -> aligned (w / 8) p = true -> accessible m p (Z.of_nat N * (R / 8)) ->
    null_load_packed w N p m = Ok (deint w R N p m).
  Proof.
    intros ER Hal Ha. unfold null_load_packed, deint. rewrite ER in *.
    destruct (wok_spec _ _ W1) as (Hw & HR & E & En), (wok_div _ _ W1 W2) as (Hk & Rd & E3).
    assert (forall l, (forall j, In j l -> (j < N)%nat) ->
      fold_right (fun j r => let* x := mkM w (nl w 128) (fun i => ld_el w (p + (Z.of_nat N * i + Z.of_nat j) * (w / 8)) m) in let* l := r in Ok (x :: l)) (Ok []) l =
      Ok (map (fun j => pack w 128 (fun i => number (Z.to_nat (w / 8)) m (p + (Z.of_nat N * i + Z.of_nat j) * (w / 8)))) l)) as X.
    { induction l as [|j l IH]; intros Hl; [reflexivity|]. cbn [fold_right map].
      rewrite (mkM_ok w (nl w 128) _ (fun i => number (Z.to_nat (w / 8)) m (p + (Z.of_nat N * i + Z.of_nat j) * (w / 8)))).
      - cbn [bind]. rewrite IH by (intros; apply Hl; right; auto). reflexivity.
      - intros i Hi. specialize (Hl j (or_introl eq_refl)). unfold ld_el.
        replace (aligned (w / 8) _) with true.
        2:{ symmetry. apply Z.eqb_eq. rewrite Z.mod_add by lia. apply Z.eqb_eq, Hal. }
        cbn [require].
        assert (accessible m (p + (Z.of_nat N * i + Z.of_nat j) * (w / 8)) (w / 8)) as Hs by (apply (acc_sub _ _ _ _ _ Ha); nia).
        rewrite rd_ok by (auto; lia). rewrite number_mk by (rewrite Z2Nat.id by lia; auto). reflexivity. }
    apply X. intros j Hj. apply in_seq in Hj. lia.
  Qed.
  Lemma vldNq_ok N p m : R = 128 -> (0 < N)%nat -> aligned (w / 8) p = true -> accessible m p (Z.of_nat N * (R / 8)) ->
    vldNq w N p m = Ok (deint w R N p m).
  Proof.
    intros ER HN Hal Ha. unfold vldNq, deint. rewrite Hal. cbn [require].
    destruct (wok_mul w R (Z.of_nat N) W1 ltac:(lia)) as (X1 & X2 & _). destruct (wok_mul 8 R (Z.of_nat N) W3 ltac:(lia)) as (Y1 & Y2 & _).
    rewrite ER in *. change (128 / 8) with 16 in *. rewrite rd_ok by (rewrite Y2; first [lia | rewrite Z.mul_comm; exact Ha]). cbn [bind]. apply f_equal.
    destruct (wok_spec _ _ W1) as (Hw & HR & E & En).
    apply map_ext_in. intros j Hj. apply in_seq in Hj. apply pack_ext; [exact W1|]. intros i Hi.
    rewrite (lane_view w (128 * Z.of_nat N)); auto; [rewrite Y2, Z.mul_comm; exact Ha|]. rewrite X2. nia.
  Qed.

  Lemma deint_reg N p m : Forall (reg R) (deint w R N p m).
  Proof. unfold deint. apply Forall_forall. intros x Hx. apply in_map_iff in Hx as (j & <- & _). apply pack_reg, W1. Qed.

  (** * Stores *)
  (** N registers one after another *)
  Definition cat (r : list Z) (i : Z) : option Z := Some (lane 8 (i mod (R / 8)) (nth (Z.to_nat (i / (R / 8))) r 0)).
  Lemma run_put (al : Z) ops : 0 < al -> (R / 8) mod al = 0 -> forall r p m,
    Forall2 (fun o a => forall p m, p mod al = 0 -> accessible m p (R / 8) -> stored w R all a p m (o p m)) ops r ->
    p mod al = 0 -> accessible m p (Z.of_nat (length r) * (R / 8)) ->
    exists m', run ops (R / 8) p m = Ok m' /\ forall q, m' q = put (R / 8 * Z.of_nat (length r)) p (cat r) m q.
  Proof.
    intros Hal Hst. destruct (wok_spec _ _ W3) as (_ & HR & E8 & _).
    induction ops as [|o ops IH]; intros r p m HF Hp Ha; inversion HF; subst; cbn [run].
    - exists m. split; auto. intros q. rewrite put_out; auto. cbn. lia.
    - rename y into a, l' into r. cbn [length] in *.
      destruct (H1 p m Hp) as (m1 & E1 & Hm1); [apply (acc_sub _ _ _ _ _ Ha); nia|].
      rewrite E1. cbn [bind].
      destruct (IH r (p + R / 8) m1 H3) as (m2 & E2 & Hm2).
      + rewrite Z.add_mod, Hp, Hst by lia. apply Z.mod_0_l. lia.
      + apply (acc_ext (put (R / 8) p (sel_bytes w all a) m)); auto. apply acc_put. apply (acc_sub _ _ _ _ _ Ha); nia.
      + exists m2. split; auto. intros q. rewrite Hm2.
        destruct (in_dec_Z p (R / 8 * Z.of_nat (S (length r))) q) as [Hq | Hq].
        * rewrite (put_in (R / 8 * Z.of_nat (S (length r)))) by auto.
          destruct (in_dec_Z p (R / 8) q) as [Hq1 | Hq1].
          -- rewrite put_out by nia. rewrite Hm1, put_in by auto. unfold sel_bytes, all, cat.
             rewrite Z.mod_small, Z.div_small by lia. reflexivity.
          -- rewrite put_in by nia. unfold cat. replace (q - p) with (q - (p + R / 8) + 1 * (R / 8)) by lia.
             rewrite Z.mod_add, Z.div_add by nia. 
             assert (0 <= (q - (p + R / 8)) / (R / 8)) by (apply Z.div_pos; nia).
             replace (Z.to_nat ((q - (p + R / 8)) / (R / 8) + 1)) with (S (Z.to_nat ((q - (p + R / 8)) / (R / 8)))) by lia. reflexivity.
        * rewrite !put_out by nia. rewrite Hm1, put_out by nia. reflexivity.
  Qed.
  Lemma cat_packed l i : (0 < length l)%nat -> 0 <= i < R / 8 * Z.of_nat (length l) ->
    cat (packed w R l) i = sel_bytes 8 all (inter w R l) i.
  Proof.
    intros HN Hi. destruct (wok_spec _ _ W1) as (Hw & HR & E & En), (wok_div _ _ W1 W2) as (Hk & Rd & E3).
    unfold cat, sel_bytes, all. apply f_equal. set (N := Z.of_nat (length l)) in *. set (n := R / w) in *. set (b := w / 8) in *.
    assert (0 < n) by nia. rewrite Rd in *.
    assert (L : forall j r, 0 <= j -> lane 8 j r = lane 8 (j mod b) (lane w (j / b) r)).
    { intros j r Hj. pose proof (Z.div_mod j b ltac:(lia)). pose proof (Z.mod_pos_bound j b ltac:(lia)).
      assert (0 <= j / b) by (apply Z.div_pos; lia). rewrite E3. rewrite lane_lane by lia. f_equal. lia. }
    rewrite (L i) by lia. replace (n * b) with (b * n) in * by ring. rewrite (L (i mod (b * n))) by (apply Z.mod_pos_bound; nia).
    rewrite (Z.rem_mul_r i b n) by lia.
    replace ((i mod b + b * ((i / b) mod n)) mod b) with (i mod b)
      by (rewrite (Z.mul_comm b), Z.mod_add, Z.mod_mod by lia; reflexivity).
    replace ((i mod b + b * ((i / b) mod n)) / b) with ((i / b) mod n)
      by (rewrite (Z.mul_comm b), Z.div_add, (Z.div_small (i mod b)) by (first [lia | apply Z.mod_pos_bound; lia]); lia).
    rewrite <- Z.div_div by lia. f_equal.
    assert (0 <= i / b < N * n) as Hx by (split; [apply Z.div_pos; lia | apply Z.div_lt_upper_bound; nia]).
    set (x := i / b) in *. clearbody x. clear i Hi L.
    assert (0 <= x / n < N) as Hr by (split; [apply Z.div_pos; lia | apply Z.div_lt_upper_bound; nia]).
    pose proof (Z.mod_pos_bound x n ltac:(lia)) as Hm. pose proof (Z.div_mod x n ltac:(lia)) as D.
    unfold packed. fold N n. rewrite (nth_map' _ _ _ 0) by (rewrite zrange_length; lia).
    rewrite nth_zrange by lia. rewrite Z2Nat.id by lia.
    destruct (wok_mul w R N W1 ltac:(lia)) as (X1 & X2 & _). fold n in X2.
    assert (gok w R n = true) as G.
    { unfold gok. rewrite W1. cbn [andb]. rewrite andb_true_iff, Z.ltb_lt, Z.eqb_eq. split; [lia|]. replace (n * w) with R by lia. apply Z.mod_same. lia. }
    replace (lane w (x mod n)) with (lane w (n * 0 + x mod n)) by (f_equal; lia).
    rewrite lane_lsh; auto; [|replace (n * w) with R by lia; rewrite Z.div_same by lia; lia].
    unfold p_packed. cbv zeta. rewrite <- D. unfold inter. fold N. rewrite lane_pack by (auto; rewrite X2; lia). rewrite wrap_lane. f_equal; lia.
  Qed.
  (** one store of everything *)
  Lemma stored_cat l p m m' : (0 < length l)%nat ->
    (forall q, m' q = put (R / 8 * Z.of_nat (length l)) p (cat (packed w R l)) m q) ->
    forall q, m' q = put (R * Z.of_nat (length l) / 8) p (sel_bytes w all (inter w R l)) m q.
  Proof.
    intros HN H q. rewrite H. destruct (wok_mul 8 R (Z.of_nat (length l)) W3 ltac:(lia)) as (Y1 & Y2 & _). rewrite Y2.
    apply put_ext. intros i Hi. rewrite cat_packed by auto. reflexivity.
  Qed.
  Lemma null_st_packed_ok p l k : forall x m, R = 128 -> (0 < length l)%nat -> aligned (w / 8) p = true ->
    accessible m p (Z.of_nat (length l) * (R / 8)) -> 0 <= x -> x + Z.of_nat k <= R / w * Z.of_nat (length l) ->
    stored w (R * Z.of_nat (length l)) (fun j => (x <=? j) && (j <? x + Z.of_nat k)) (inter w R l) p m (null_st_packed w p l x k m).
  Proof.
    intros x m ER HN. destruct (wok_mul w R (Z.of_nat (length l)) W1 ltac:(lia)) as (X1 & X2 & _). destruct (wok_mul 8 R (Z.of_nat (length l)) W3 ltac:(lia)) as (Y1 & Y2 & _).
    revert x m. induction k; intros x m Hal Ha Hx Hk.
    - cbn [null_st_packed]. apply stored_none; auto; [rewrite Y2, Z.mul_comm; exact Ha|]. intros j. apply andb_false_iff. rewrite Z.leb_gt, Z.ltb_ge. lia.
    - cbn [null_st_packed]. cbv zeta.
      apply (stored_ext w _ (fun j => ((x + 1 <=? j) && (j <? x + 1 + Z.of_nat k)) || (j =? x))); auto.
      + intros j Hj. destruct (Z.eqb_spec j x); [|destruct (Z.leb_spec (x + 1) j), (Z.leb_spec x j), (Z.ltb_spec j (x + 1 + Z.of_nat k)), (Z.ltb_spec j (x + Z.of_nat (S k))); cbn; lia].
        rewrite orb_true_r. symmetry. apply andb_true_iff. split; [apply Z.leb_le|apply Z.ltb_lt]; lia.
      + apply (stored_seq w _ (fun j => j =? x)); auto.
        * replace (lane w (x / Z.of_nat (length l)) (nth (Z.to_nat (x mod Z.of_nat (length l))) l 0)) with (lane w x (inter w R l)).
          -- apply stored_el; auto; [rewrite Y2, Z.mul_comm; exact Ha|]. rewrite X2. lia.
          -- unfold inter. rewrite lane_pack by (auto; rewrite X2; lia). apply wrap_lane.
        * intros m1 Hm1. apply IHk; auto; try lia. eapply acc_ext; [|exact Hm1]. apply acc_put. auto.
  Qed.
  Lemma null_store_packed_ok p l m : R = 128 -> (0 < length l)%nat -> aligned (w / 8) p = true ->
    accessible m p (Z.of_nat (length l) * (R / 8)) ->
    stored w (R * Z.of_nat (length l)) all (inter w R l) p m (null_store_packed w p l m).
  Proof.
    intros ER HN Hal Ha. destruct (wok_mul w R (Z.of_nat (length l)) W1 ltac:(lia)) as (X1 & X2 & _).
    destruct (wok_spec _ _ W1) as (Hw & HR & E & En).
    unfold null_store_packed. rewrite <- ER in *. eapply stored_ext; [exact X1|exact W2| |apply null_st_packed_ok; auto; lia].
    intros i Hi. rewrite X2 in Hi. unfold all. apply andb_true_iff. split; [apply Z.leb_le|apply Z.ltb_lt]; lia.
  Qed.
  Lemma vstNq_ok p l m : R = 128 -> (0 < length l)%nat -> aligned (w / 8) p = true ->
    accessible m p (Z.of_nat (length l) * (R / 8)) ->
    stored w (R * Z.of_nat (length l)) all (inter w R l) p m (vstNq w p l m).
  Proof.
    intros ER HN Hal Ha. unfold vstNq. cbv zeta. rewrite Hal. cbn [require]. rewrite <- ER in *.
    apply stored_full. destruct (wok_mul 8 R (Z.of_nat (length l)) W3 ltac:(lia)) as (Y1 & Y2 & _). rewrite Y2, Z.mul_comm. exact Ha.
  Qed.
End W.

Section I.
  Variables (A : arch) (e : et) (s : rsz).
  Hypotheses (HV : valid_arch A = true) (HA : avail_et A e s = true).
  Notation w := (eb e).
  Notation R := (rbits s).
  Let W1 : wok w R = true := wokR e s.
  Let W2 : wok 8 w = true := wok8e e.
  Let W3 : wok 8 R = true := wok8R s.

  Lemma load_regs_ok N : forall p m, p mod (R / 8) = 0 -> accessible m p (Z.of_nat N * (R / 8)) ->
    load_regs A e s N p m = Ok (views R N p m).
  Proof.
    induction N; intros p m Hp Ha; [reflexivity|]. cbn [load_regs].
    assert (0 < R / 8) by (destruct s; reflexivity).
    rewrite i_load_ok; auto; [|apply (acc_sub _ _ _ _ _ Ha); nia]. cbn [bind].
    rewrite IHN. 2:{ replace (p + R / 8) with (p + 1 * (R / 8)) by lia. rewrite Z.mod_add by lia. exact Hp. } 2:{ apply (acc_sub _ _ _ _ _ Ha); nia. }
    cbn [bind]. apply f_equal. unfold views. cbn [seq map]. rewrite <- seq_shift, map_map. f_equal.
    - f_equal; lia.
    - apply map_ext. intros r. f_equal. lia.
  Qed.
  Lemma views_reg N p m : Forall (reg R) (views R N p m).
  Proof. unfold views. apply Forall_forall. intros x Hx. apply in_map_iff in Hx as (j & <- & _). apply view_reg, W3. Qed.
  Lemma v_load_packed_ok N p m : (2 <= N <= 4)%nat -> p mod (R / 8) = 0 -> accessible m p (Z.of_nat N * (R / 8)) ->
    v_load_packed A e s N p m = Ok (deint w R N p m).
  Proof.
    intros HN Hp Ha. unfold v_load_packed, assume_aligned, aligned. rewrite Hp. cbn [Z.eqb require].
    rewrite load_regs_ok by auto. cbn [bind]. rewrite mem_unpack_ok; auto.
    - rewrite unpacked_views; auto. lia.
    - unfold views. rewrite map_length, seq_length. exact HN.
    - apply views_reg.
  Qed.
  Lemma store_regs_run r : forall p m, store_regs A e s p r m = run (map (fun a p m => i_store A e s p a m) r) (R / 8) p m.
  Proof. induction r; intros; cbn; auto. destruct (i_store A e s p a m); cbn [bind]; auto. Qed.
  Lemma packed_len l : length (packed w R l) = length l.
  Proof. unfold packed. rewrite map_length, zrange_length. lia. Qed.
  Lemma v_store_packed_ok p l m : (2 <= length l <= 4)%nat -> Forall (reg R) l -> p mod (R / 8) = 0 ->
    p mod store_align (length l) s = 0 -> accessible m p (Z.of_nat (length l) * (R / 8)) ->
    stored w (R * Z.of_nat (length l)) all (inter w R l) p m (v_store_packed A e s p l m).
  Proof.
    intros HN HF Hp Hal Ha. unfold v_store_packed, assume_aligned, aligned. rewrite Hal. cbn [Z.eqb require].
    rewrite mem_pack_ok by auto. cbn [bind]. rewrite store_regs_run.
    destruct (run_put w R W1 W2 (R / 8) (map (fun a p m => i_store A e s p a m) (packed w R l))) with (r := packed w R l) (p := p) (m := m) as (m' & E & Hm).
    - destruct s; reflexivity.
    - apply Z.mod_same. destruct s; discriminate.
    - induction (packed w R l); constructor; auto. intros. apply i_store_ok; auto.
    - exact Hp.
    - rewrite packed_len. exact Ha.
    - exists m'. split; [exact E|]. rewrite packed_len in Hm. apply stored_cat; auto. lia.
  Qed.
End I.

Lemma deint3_64 p m : accessible m p 48 ->
  [vcombine (vget_low (view 128 p m)) (vget_high (view 128 (p + 16) m));
   vcombine (vget_high (view 128 p m)) (vget_low (view 128 (p + 32) m));
   vcombine (vget_low (view 128 (p + 16) m)) (vget_high (view 128 (p + 32) m))] = deint 64 128 3 p m.
Proof.
  intros Ha.
  assert (forall q i, accessible m q 16 -> 0 <= i < 2 -> lane 64 i (view 128 q m) = number 8 m (q + i * 8)) as L
    by (intros; apply (lane_view 64 128); auto).
  assert (accessible m p 16 /\ accessible m (p + 16) 16 /\ accessible m (p + 32) 16) as (A0 & A1 & A2)
    by (repeat split; apply (acc_sub _ _ _ _ _ Ha); lia).
  pose proof (L p 0 A0 ltac:(lia)). pose proof (L p 1 A0 ltac:(lia)).
  pose proof (L _ 0 A1 ltac:(lia)). pose proof (L _ 1 A1 ltac:(lia)).
  pose proof (L _ 0 A2 ltac:(lia)). pose proof (L _ 1 A2 ltac:(lia)). clear L.
  unfold deint, vcombine, vget_low, vget_high. cbn [map seq]. change (64 / 8) with 8. change (Z.to_nat 8) with 8%nat.
  assert (forall f h, f 0 = h 0 -> f 1 = h 1 -> pack 64 128 f = pack 64 128 h) as X.
  { intros f h F0 F1. apply pack_ext; [reflexivity|]. change (128 / 64) with 2. intros i Hi.
    assert (i = 0 \/ i = 1) as [-> | ->] by lia; congruence. }
  f_equal; [|f_equal; [|f_equal]]; apply X; cbn [Z.eqb]; cbv beta;
    match goal with E : ?x = _ |- ?x = _ => rewrite E end; f_equal; lia.
Qed.
Lemma packed3_64 a b c : packed 64 128 [a; b; c] =
  [vcombine (vget_low a) (vget_low b); vcombine (vget_low c) (vget_high a); vcombine (vget_high b) (vget_high c)].
Proof.
  expand. unfold vcombine, vget_low, vget_high, lsh.
  apply (f_equal2 cons); [|apply (f_equal2 cons); [|apply (f_equal2 cons); [|reflexivity]]]; (apply pack_ext; [reflexivity|]); change (128 / 64) with 2; intros i Hi;
    (assert (i = 0 \/ i = 1) as [-> | ->] by lia); reflexivity.
Qed.
Section I2.
  Variables (A : arch) (e : et) (s : rsz).
  Hypotheses (HV : valid_arch A = true) (HA : avail_et A e s = true).
  Notation w := (eb e).
  Notation R := (rbits s).
  Lemma neon32_load_packed3_ok p m : p mod 16 = 0 -> accessible m p 48 -> neon32_load_packed3 A p m = Ok (deint 64 128 3 p m).
  Proof.
    intros Hp Ha. unfold neon32_load_packed3.
    rewrite !i_load_ok; auto; try (apply (acc_sub _ _ _ _ _ Ha); cbn; lia).
    - cbn [bind rbits]. apply f_equal, deint3_64, Ha.
    - replace (p + 32) with (p + 2 * 16) by lia. cbn [rbits]. change (128 / 8) with 16. rewrite Z.mod_add by lia. exact Hp.
    - replace (p + 16) with (p + 1 * 16) by lia. cbn [rbits]. change (128 / 8) with 16. rewrite Z.mod_add by lia. exact Hp.
  Qed.
  Lemma neon32_store_packed3_ok p l m : length l = 3%nat -> p mod 16 = 0 -> accessible m p 48 ->
    stored 64 (128 * Z.of_nat (length l)) all (inter 64 128 l) p m (neon32_store_packed3 p l m).
  Proof.
    intros HL Hp Ha. destruct l as [|a [|b [|c [|? ?]]]]; try discriminate. clear HL.
    set (st x y := fun p m => vst2_u64 p x y m).
    destruct (run_put 64 128 eq_refl eq_refl 16 [st (vget_low a) (vget_low b); st (vget_low c) (vget_high a); st (vget_high b) (vget_high c)])
      with (r := packed 64 128 [a; b; c]) (p := p) (m := m) as (m' & E & Hm).
    - reflexivity.
    - reflexivity.
    - rewrite packed3_64.
      assert (forall x y p m, p mod 16 = 0 -> accessible m p 16 -> stored 64 128 all (vcombine x y) p m (vst2_u64 p x y m)) as X.
      { intros x y q m0 Hq Hacc. unfold vst2_u64. rewrite (aligned_mul 8 2) by (auto; lia). cbn [require]. apply stored_full. exact Hacc. }
      repeat constructor; intros; apply X; auto.
    - exact Hp.
    - rewrite packed3_64. exact Ha.
    - exists m'. split.
      + rewrite <- E. unfold neon32_store_packed3, st, g. cbn [run nth]. change (128 / 8) with 16.
        destruct (vst2_u64 p _ _ m); cbn [bind]; auto. destruct (vst2_u64 (p + 16) _ _ _); cbn [bind]; auto.
        replace (p + 16 + 16) with (p + 32) by lia. destruct (vst2_u64 (p + 32) _ _ _); reflexivity.
      + rewrite packed3_64 in Hm. apply (stored_cat 64 128 eq_refl eq_refl [a; b; c]); [cbn; lia|]. rewrite packed3_64. exact Hm.
  Qed.
  Lemma i_load_packed_ok N p m : (2 <= N <= 4)%nat -> p mod (R / 8) = 0 -> accessible m p (Z.of_nat N * (R / 8)) ->
    i_load_packed A N e s p m = Ok (deint w R N p m).
  Proof.
    intros HN Hp Ha. pose proof (v_load_packed_ok A e s HV HA N p m HN Hp Ha) as EV.
    unfold i_load_packed. rewrite EV. clear EV. cbv zeta. destruct s.
    - cbn [rbits] in *. change (128 / 8) with 16 in *.
      assert (aligned (w / 8) p = true) as Hal by (apply aligned_16; auto; destruct e; reflexivity).
      rewrite (null_load_packed_ok w 128) by (auto; destruct e; reflexivity).
      rewrite (vldNq_ok w 128) by (auto; first [lia | destruct e; reflexivity]).
      assert (N = 3%nat -> neon32_load_packed3 A p m = Ok (deint 64 128 N p m)) as E3
        by (intros ->; apply neon32_load_packed3_ok; auto).
      unfold assume16, assume_aligned, aligned. rewrite Hp. cbn [Z.eqb require].
      assert (N = 2 \/ N = 3 \/ N = 4)%nat as HC by lia.
      destruct HC as [-> | [-> | ->]]; try rewrite E3 by reflexivity; clear E3;
      destruct e; cbn [eb]; unfold use_neon64, use_neon32, use_neon_no_flt_sp; fam HV; rw_flags; cbn [orb andb negb]; repeat split_if; try reflexivity; vimp HV.
    - unfold if_wide. rewrite HA. reflexivity.
    - unfold if_wide. rewrite HA. reflexivity.
  Qed.
  Definition needs (N : nat) : Z :=
    match N, s with 2%nat, R128 => if use_null A || use_neon64 A then 16 else 32 | _, _ => R / 8 end.
  Lemma i_store_packed_ok p l m : (2 <= length l <= 4)%nat -> Forall (reg R) l -> p mod needs (length l) = 0 ->
    accessible m p (Z.of_nat (length l) * (R / 8)) ->
    stored w (R * Z.of_nat (length l)) all (inter w R l) p m (i_store_packed A e s p l m).
  Proof.
    intros HN HF Hq Ha.
    assert (p mod (R / 8) = 0) as Hp.
    { unfold needs in Hq. destruct (length l) as [|[|[|?]]]; auto. destruct s; auto. cbn [rbits]. change (128 / 8) with 16.
      destruct (_ || _); auto. apply Z.mod_divide in Hq; [|lia]. apply Z.mod_divide; [lia|]. destruct Hq as [z ->]. exists (z * 2). ring. }
    assert (p mod store_align (length l) s = 0 -> stored w (R * Z.of_nat (length l)) all (inter w R l) p m (v_store_packed A e s p l m)) as EV
      by (intros; apply v_store_packed_ok; auto).
    assert (HS : use_null A || use_neon64 A = false \/ s <> R128 \/ length l <> 2%nat -> p mod store_align (length l) s = 0).
    { unfold store_align, needs in *. destruct (length l) as [|[|[|?]]]; auto. destruct s.
      - intros [E | [? | ?]]; [rewrite E in Hq; exact Hq | contradiction..].
      - intros _. cbn [rbits] in Hp. exact Hp.
      - intros _. cbn [rbits] in Hp. change (512 / 8) with 64 in Hp. apply Z.mod_divide in Hp; [|lia]. apply Z.mod_divide; [lia|]. destruct Hp as [z ->]. exists (z * 2). ring. }
    unfold i_store_packed. cbv zeta. destruct s.
    - cbn [rbits] in *. change (128 / 8) with 16 in *.
      assert (aligned (w / 8) p = true) as Hal by (apply aligned_16; auto; destruct e; reflexivity).
      assert (stored w (128 * Z.of_nat (length l)) all (inter w 128 l) p m (null_store_packed w p l m)) as EN
        by (apply null_store_packed_ok; auto; first [lia | destruct e; reflexivity]).
      assert (stored w (128 * Z.of_nat (length l)) all (inter w 128 l) p m (vstNq w p l m)) as EQ
        by (apply vstNq_ok; auto; first [lia | destruct e; reflexivity]).
      assert (length l = 3%nat -> stored 64 (128 * Z.of_nat (length l)) all (inter 64 128 l) p m (neon32_store_packed3 p l m)) as E3
        by (intros HL; apply neon32_store_packed3_ok; auto; rewrite HL in Ha; exact Ha).
      unfold assume16, assume_aligned, aligned. rewrite Hp. cbn [Z.eqb require].
      assert (length l = 2 \/ length l = 3 \/ length l = 4)%nat as HC by lia.
      assert (use_null A || use_neon64 A = false -> stored w (128 * Z.of_nat (length l)) all (inter w 128 l) p m (v_store_packed A e R128 p l m)) as EV2
        by (intros; apply EV, HS; left; assumption).
      clear EV HS Hq Ha HF. unfold use_neon64, use_neon32, use_neon_no_flt_sp in *.
      destruct HC as [HC | [HC | HC]]; rewrite HC in *; try specialize (E3 eq_refl);
      destruct e; cbn [eb] in *; fam HV; rw_flags; cbn [orb andb negb] in *; repeat split_if;
        first [exact EN | exact EQ | apply EV2; rw_flags; reflexivity | exact E3 | vimp HV].
    - unfold if_wide. rewrite HA. apply EV, HS. right. left. discriminate.
    - unfold if_wide. rewrite HA. apply EV, HS. right. left. discriminate.
  Qed.
End I2.
