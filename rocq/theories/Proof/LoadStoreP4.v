(** store_masked of one register; loads and stores of whole vectors. *)
From Verif Require Export Proof.LoadStoreP3.

Section S.
  Variables (A : arch).
  Hypothesis HV : valid_arch A = true.

  Lemma pack_bytes w R (c : Z -> bool) a b j : wok w R = true -> wok 8 w = true -> 0 <= j < R / 8 ->
    lane 8 j (pack w R (fun i => if (c i : bool) then lane w i a else lane w i b)) =
    if (c (j / (w / 8)) : bool) then lane 8 j a else lane 8 j b.
  Proof.
    intros H1 H3 Hj. destruct (wok_div _ _ H1 H3) as (Hk & Rd & E3). destruct (wok_spec _ _ H1) as (Hw & HR & E & En).
    pose proof (Z.div_mod j (w / 8) ltac:(lia)) as D. pose proof (Z.mod_pos_bound j (w / 8) Hk) as M.
    assert (HI : 0 <= j / (w / 8) < R / w) by (split; [apply Z.div_pos; lia|apply Z.div_lt_upper_bound; nia]).
    assert (L : forall r, lane 8 j r = lane 8 (j mod (w / 8)) (lane w (j / (w / 8)) r)).
    { intros r. rewrite E3 at 2. rewrite lane_lane by lia. f_equal. lia. }
    rewrite (L (pack _ _ _)), lane_pack by auto. rewrite (L a), (L b). destruct (c _); rewrite wrap_lane; reflexivity.
  Qed.
  (** load, blend, store *)
  Lemma lbs e s (c : Z -> bool) a p m t : avail_et A e s = true -> p mod (rbits s / 8) = 0 -> accessible m p (rbits s / 8) ->
    (forall b, reg (rbits s) b -> t b = Ok (pack (eb e) (rbits s) (fun i => if c i then lane (eb e) i a else lane (eb e) i b))) ->
    stored (eb e) (rbits s) c a p m
      (let* b := i_load A e s p m in let* b := t b in i_store A e s p b m).
  Proof.
    intros HA Hp Hacc Ht. rewrite (i_load_ok A HV e s) by auto. cbn [bind].
    rewrite Ht by (apply view_reg, wok8R). cbn [bind].
    eapply stored_blend; [destruct e, s; reflexivity|destruct e; reflexivity|auto| |].
    2:{ destruct (i_store_ok A HV e s p (pack (eb e) (rbits s) (fun i => if c i then lane (eb e) i a else lane (eb e) i (view (rbits s) p m))) m HA Hp Hacc) as (m' & E & Hm).
        exists m'. split; [exact E|exact Hm]. }
    intros j Hj. rewrite pack_bytes by (auto; destruct e, s; reflexivity). destruct (c _); auto.
    apply byte_view; auto using wok8R.
  Qed.

  Lemma null_bytes k w s (c : Z -> bool) : k = pack 8 (8 * (rbits s / wb w)) (fun i => Z.b2z (c i)) ->
    forall i, 0 <= i < rbits s / wb w -> (lane 8 i k =? 0) = negb (c i).
  Proof. intros -> i Hi. rewrite lane_mnull by auto. destruct (c i); reflexivity. Qed.

  Definition ei (w : ew) : et := match w with W64 => I64 | _ => I32 end.
  Lemma i_store_masked_ok w s (c : Z -> bool) p a k m : w = W32 \/ w = W64 -> avail_int A (wb w) s = true ->
    reg (rbits s) a -> p mod (rbits s / 8) = 0 -> accessible m p (rbits s / 8) -> mrel A w s c k ->
    stored (wb w) (rbits s) c a p m (i_store_masked A w s p a k m).
  Proof.
    intros Hww HA Ha Hp Hacc Hk.
    assert (HE : eb (ei w) = wb w) by (destruct Hww; subst; reflexivity).
    assert (HAe : avail_et A (ei w) s = true) by (destruct Hww; subst; exact HA).
    assert (W1 : wok (wb w) (rbits s) = true) by (destruct w, s; reflexivity).
    assert (W2 : wok 8 (wb w) = true) by (destruct w; reflexivity).
    assert (LB : stored (wb w) (rbits s) c a p m
       (let* b := i_load A (ei w) s p m in let* b := i_blend_m A w s a b k in i_store A (ei w) s p b m)).
    { rewrite <- HE. apply lbs; auto. intros b Hb. rewrite HE. apply sel_m_ok; auto.
      intros; apply i_blend_ok; auto. }
    assert (KB : mk_int A w s = KBits -> stored (wb w) (rbits s) c a p m (mm_mask_store (wb w) (rbits s) p k a m)).
    { intros EK. unfold mrel in Hk. rewrite EK in Hk. apply mask_store_ok; auto. apply Hk. }
    assert (KV : mk_int A w s = KVec -> stored (wb w) (rbits s) c a p m (mm_maskstore (wb w) (rbits s) p k a m)).
    { intros EK. unfold mrel in Hk. rewrite EK in Hk. cbn [mask_rel] in Hk. subst k. apply maskstore_ok; auto. }
    assert (KN : s = R128 -> mk_int A w s = KNull -> stored (wb w) (rbits s) c a p m (null_store_masked (wb w) p a k m)).
    { intros -> EK. unfold mrel in Hk. rewrite EK in Hk. cbn [mask_rel rbits] in *. apply null_store_masked_ok; auto.
      - apply aligned_16; auto.
      - apply (null_bytes k w R128); auto. }
    clear Hk. unfold mk_int in *. unfold i_store_masked, if_wide, scalar64. change (match w with W64 => I64 | _ => I32 end) with (ei w) in *.
    destruct s; cbn [rbits] in *; rewrite ?HAe;
      destruct Hww; subst w; cbn [ei eb avail_et] in *;
      fam HV; rw_flags; cbn [orb andb negb] in *; repeat split_if;
      first [ assumption | apply KB; rw_flags; reflexivity | apply KV; rw_flags; reflexivity | apply KN; rw_flags; reflexivity | vimp HV ].
  Qed.

  Definition ef (d : bool) : et := if d then F64 else F32.
  Lemma f_store_masked_ok d s (c : Z -> bool) p a k m : avail_flt A s = true ->
    reg (rbits s) a -> p mod (rbits s / 8) = 0 -> accessible m p (rbits s / 8) -> frel A d s c k ->
    stored (fw d) (rbits s) c a p m (f_store_masked A d s p a k m).
  Proof.
    intros HA Ha Hp Hacc Hk.
    assert (HE : eb (ef d) = fw d) by (destruct d; reflexivity).
    assert (HAe : avail_et A (ef d) s = true) by (destruct d; exact HA).
    assert (HW : wb (few d) = fw d) by (destruct d; reflexivity).
    assert (W1 : wok (fw d) (rbits s) = true) by (destruct d, s; reflexivity).
    assert (W2 : wok 8 (fw d) = true) by (destruct d; reflexivity).
    assert (LB : stored (fw d) (rbits s) c a p m
       (let* b := i_load A (ef d) s p m in let* b := f_blend_m A d s a b k in i_store A (ef d) s p b m)).
    { rewrite <- HE. apply lbs; auto. intros b Hb. rewrite HE. apply f_sel_m_ok; auto.
      intros; apply f_blend_ok; auto. }
    assert (KB : mk_flt A d s = KBits -> stored (fw d) (rbits s) c a p m (mm_mask_store (fw d) (rbits s) p k a m)).
    { intros EK. unfold frel, mrelk in Hk. rewrite EK, HW in Hk. apply mask_store_ok; auto. apply Hk. }
    assert (KV : mk_flt A d s = KVec -> stored (fw d) (rbits s) c a p m (mm_maskstore (fw d) (rbits s) p k a m)).
    { intros EK. unfold frel, mrelk in Hk. rewrite EK, HW in Hk. cbn [mask_rel] in Hk. subst k. apply maskstore_ok; auto. }
    assert (KN : s = R128 -> mk_flt A d s = KNull -> stored (fw d) (rbits s) c a p m (null_store_masked (fw d) p a k m)).
    { intros -> EK. unfold frel, mrelk in Hk. rewrite EK in Hk. cbn [mask_rel rbits] in *. apply null_store_masked_ok; auto.
      - apply aligned_16; auto.
      - rewrite <- HW. apply (null_bytes k (few d) R128); auto. }
    clear Hk. unfold mk_flt, use_neon64, use_neon_no_flt_sp in *. unfold f_store_masked, if_wide, use_neon32. change (if d then F64 else F32) with (ef d) in *.
    destruct s; cbn [rbits] in *; rewrite ?HAe;
      destruct d; cbn [ef eb avail_et] in *;
      fam HV; rw_flags; cbn [orb andb negb] in *; repeat split_if;
      first [ assumption | apply KB; rw_flags; reflexivity | apply KV; rw_flags; reflexivity | apply KN; rw_flags; reflexivity | vimp HV ].
  Qed.
End S.

(** * Whole vectors *)
Fixpoint run (ops : list (Z -> mem -> res mem)) (step p : Z) (m : mem) : res mem :=
  match ops with
  | [] => Ok m
  | o :: ops => let* m := o p m in run ops step (p + step) m
  end.
Lemma run_app o1 o2 step : forall p m,
  run (o1 ++ o2) step p m = let* m1 := run o1 step p m in run o2 step (p + Z.of_nat (length o1) * step) m1.
Proof.
  induction o1; intros p m; cbn [app run length bind].
  - replace (p + Z.of_nat 0 * step) with p by lia. reflexivity.
  - destruct (a p m) as [m1| |]; cbn [bind]; auto. rewrite IHo1. destruct (run o1 step (p + step) m1); cbn [bind]; auto.
    f_equal. lia.
Qed.
Lemma run_nops {X} (l : list X) step : forall p m, run (map (fun _ _ m => Ok m) l) step p m = Ok m.
Proof. induction l; intros; cbn; auto. Qed.
Lemma v_store_run f step : forall v p m, v_store f step p v m = run (map (fun a p m => f p a m) v) step p m.
Proof. induction v; intros; cbn; auto. destruct (f p a m); cbn [bind]; auto. Qed.
Lemma v_store2_run f step : forall v k p m, length v = length k ->
  v_store2 f step p v k m = run (zipw (fun a c p m => f p a c m) v k) step p m.
Proof. induction v; destruct k; cbn; intros; try discriminate; auto. destruct (f p a z m); cbn [bind]; auto. Qed.
Lemma st_range_run f step v : forall k i p m, 0 <= i -> i + Z.of_nat k <= Z.of_nat (length v) ->
  st_range f step p v i k m = run (map (fun a p m => f p a m) (firstn k (skipn (Z.to_nat i) v))) step p m.
Proof.
  induction k; intros i p m Hi Hk; [reflexivity|]. cbn [st_range].
  unfold vec_at. destruct (nth_error v (Z.to_nat i)) eqn:E.
  - assert (ES : skipn (Z.to_nat i) v = z :: skipn (Z.to_nat (i + 1)) v).
    { replace (Z.to_nat (i + 1)) with (S (Z.to_nat i)) by lia. clear - E. revert E. generalize (Z.to_nat i). intros n. revert n.
      induction v; destruct n; cbn; intros E; try discriminate; [injection E as ->; reflexivity|]. apply IHv. exact E. }
    rewrite ES. cbn [firstn map run bind]. destruct (f p z m); cbn [bind]; auto. apply IHk; lia.
  - apply nth_error_None in E. lia.
Qed.

Definition bools (n : nat) (sel : Z -> bool) : list bool := map (fun i => sel (Z.of_nat i)) (seq 0 n).

Section L.
  Variables (w : Z) (s : rsz).
  Hypotheses (W1 : wok w (rbits s) = true) (W2 : wok 8 w = true).
  Let R := rbits s.
  Let N := nl w R.
  Let step := R / 8.
  Lemma len_bytes : Z.of_nat N * (w / 8) = step.
  Proof.
    destruct (wok_spec _ _ W1) as (Hw & HR & E & En). destruct (wok_div _ _ W1 W2) as (Hk & Rd & _).
    unfold N, nl, step, R. rewrite Z2Nat.id by lia. lia.
  Qed.
  Lemma stored_step sel a p m r : accessible m p step -> stored w R sel a p m r ->
    exists m', r = Ok m' /\ array w p N m' = new_masked (bools N sel) (elems w N a) (array w p N m) /\ only_changes p step m m'.
  Proof.
    intros Ha (m' & E & Hm). exists m'. split; auto. split; [|eapply only_put; eauto].
    unfold N. rewrite (array_put w R p sel a m m') by auto. unfold new_masked, bools, elems, array. symmetry. apply zipw3_map.
  Qed.
  Lemma step_pos : 0 < step.
  Proof. unfold step, R. destruct s; reflexivity. Qed.

  Variable PRE : nat -> Z -> mem -> Prop.
  Variable pre : Z -> mem -> Prop.
  Hypothesis P1 : forall k p m, PRE (S k) p m -> pre p m /\ accessible m p step.
  Hypothesis P2 : forall k p m m', PRE (S k) p m -> only_changes p step m m' -> PRE k (p + step) m'.
  Hypothesis P3 : forall k p m, PRE k p m -> accessible m p (Z.of_nat k * step).
  Definition good (o : Z -> mem -> res mem) (x : Z * (Z -> bool)) : Prop :=
    forall p m, pre p m -> accessible m p step -> stored w R (snd x) (fst x) p m (o p m).
  Lemma vlen_S k : vlen w s (S k) = (N + vlen w s k)%nat.
  Proof. reflexivity. Qed.
  Lemma run_ok ops l : Forall2 good ops l -> forall p m, PRE (length l) p m ->
    exists m', run ops step p m = Ok m' /\
      array w p (vlen w s (length l)) m' =
        new_masked (flat_map (fun x => bools N (snd x)) l) (lanes w s (map fst l)) (array w p (vlen w s (length l)) m) /\
      only_changes p (vbytes s (length l)) m m'.
  Proof.
    pose proof step_pos as SP. pose proof len_bytes as LB.
    assert (W8 : 0 <= w / 8) by (destruct (wok_div _ _ W1 W2) as (Hk & _); lia).
    assert (VB : forall k, Z.of_nat (vlen w s k) * (w / 8) = Z.of_nat k * step).
    { intros k. unfold vlen. fold R N. rewrite Nat2Z.inj_mul, <- Z.mul_assoc, LB. reflexivity. }
    induction 1 as [|o [a sel] ops l Ho Hl IH]; intros p m HP.
    - exists m. split; [reflexivity|]. split; [reflexivity|]. apply only_refl. intros q Hq. unfold vbytes in Hq. cbn in Hq. lia.
    - cbn [length] in *. destruct (P1 _ _ _ HP) as [Hp Ha].
      destruct (stored_step _ _ _ _ _ Ha (Ho p m Hp Ha)) as (m1 & E1 & A1 & O1). cbn [fst snd] in *.
      destruct (IH (p + step) m1 (P2 _ _ _ _ HP O1)) as (m2 & E2 & A2 & O2).
      exists m2. cbn [run]. rewrite E1. cbn [bind]. split; [exact E2|]. split.
      + rewrite vlen_S, !array_app. rewrite !LB.
        rewrite (only_array _ _ _ _ w p N W8 O2) by (left; lia). rewrite A1, A2.
        rewrite (only_array _ _ _ _ w (p + step) _ W8 O1) by (right; lia).
        cbn [flat_map map fst snd]. rewrite lanes_cons. unfold new_masked. symmetry. apply zipw3_app.
        * unfold bools. rewrite map_length, seq_length, elems_length. reflexivity.
        * unfold bools. rewrite map_length, seq_length, array_len. reflexivity.
      + pose proof (P3 _ _ _ HP) as Hacc. unfold vbytes in *. change (rbits s / 8) with step in *.
        eapply (only_trans p step (p + step) (Z.of_nat (length l) * step)); eauto; lia.
  Qed.

End L.

Lemma new_masked_all l : forall old, length old = length l -> new_masked (map (fun _ => true) l) l old = l.
Proof.
  induction l; destruct old; cbn; intros H; try discriminate; auto. unfold new_masked in *. f_equal. apply IHl. lia.
Qed.
Lemma new_masked_lt (t : Z) l : forall k old, length old = length l ->
  new_masked (map (fun i => Z.of_nat i <? t) (seq k (length l))) l old =
  firstn (Z.to_nat (t - Z.of_nat k)) l ++ skipn (Z.to_nat (t - Z.of_nat k)) old.
Proof.
  unfold new_masked. induction l; destruct old as [|y old]; intros H; try discriminate.
  - cbn. rewrite firstn_nil, skipn_nil. reflexivity.
  - cbn [length seq map zipw3]. destruct (Z.ltb_spec (Z.of_nat k) t).
    + replace (Z.to_nat (t - Z.of_nat k)) with (S (Z.to_nat (t - Z.of_nat (S k)))) by lia.
      cbn [firstn skipn app]. f_equal. apply IHl. cbn in H. lia.
    + rewrite IHl by (cbn in H; lia). replace (Z.to_nat (t - Z.of_nat k)) with 0%nat by lia.
      replace (Z.to_nat (t - Z.of_nat (S k))) with 0%nat by lia. reflexivity.
Qed.
Lemma new_masked_ge (t : Z) l : forall k old, length old = length l ->
  new_masked (map (fun i => t <=? Z.of_nat i) (seq k (length l))) l old =
  firstn (Z.to_nat (t - Z.of_nat k)) old ++ skipn (Z.to_nat (t - Z.of_nat k)) l.
Proof.
  unfold new_masked. induction l; destruct old as [|y old]; intros H; try discriminate.
  - cbn. rewrite firstn_nil, skipn_nil. reflexivity.
  - cbn [length seq map zipw3]. destruct (Z.leb_spec t (Z.of_nat k)).
    + rewrite IHl by (cbn in H; lia). replace (Z.to_nat (t - Z.of_nat k)) with 0%nat by lia.
      replace (Z.to_nat (t - Z.of_nat (S k))) with 0%nat by lia. reflexivity.
    + replace (Z.to_nat (t - Z.of_nat k)) with (S (Z.to_nat (t - Z.of_nat (S k)))) by lia.
      cbn [firstn skipn app]. f_equal. apply IHl. cbn in H. lia.
Qed.

(** the registers of a vector with the part of a selection of elements that concerns them *)
Fixpoint sels (N : nat) (c : Z -> bool) (j : nat) (v : vec) : list (Z * (Z -> bool)) :=
  match v with
  | [] => []
  | a :: v => (a, fun i => c (Z.of_nat (j * N) + i)) :: sels N c (S j) v
  end.
Lemma sels_fst N c v : forall j, map fst (sels N c j v) = v.
Proof. induction v; intros; cbn; auto. f_equal. apply IHv. Qed.
Lemma sels_len N c v j : length (sels N c j v) = length v.
Proof. rewrite <- (sels_fst N c v j) at 2. rewrite map_length. reflexivity. Qed.
Lemma sels_app N c v1 v2 : forall j, sels N c j (v1 ++ v2) = sels N c j v1 ++ sels N c (j + length v1) v2.
Proof.
  induction v1; intros; cbn [app sels length]; [f_equal; lia|]. f_equal. rewrite IHv1. f_equal. f_equal. lia.
Qed.
Lemma sels_bools N c v : forall j, flat_map (fun x => bools N (snd x)) (sels N c j v) =
  map (fun i => c (Z.of_nat i)) (seq (j * N) (length v * N)).
Proof.
  induction v; intros j; cbn [sels flat_map]; [reflexivity|]. cbn [snd length Nat.mul].
  rewrite seq_app, map_app, IHv. f_equal.
  - unfold bools. clear. generalize (j * N)%nat as b. intros b.
    replace (seq b N) with (map (fun i => (b + i)%nat) (seq 0 N)).
    + rewrite map_map. apply map_ext. intros. f_equal. lia.
    + replace (seq b N) with (seq (b + 0) N) by (f_equal; lia). generalize 0%nat. induction N; intros k; cbn; auto. f_equal.
      rewrite IHN. f_equal. lia.
  - f_equal. f_equal. cbn. lia.
Qed.

(** reading a whole vector *)
Section Ld.
  Variables (w : Z) (s : rsz) (f : Z -> mem -> res Z) (PRE : nat -> Z -> mem -> Prop).
  Hypotheses (W1 : wok w (rbits s) = true) (W2 : wok 8 w = true).
  Hypothesis P : forall k p m, PRE (S k) p m -> f p m = Ok (view (rbits s) p m) /\ accessible m p (rbits s / 8) /\ PRE k (p + rbits s / 8) m.
  Lemma v_load_ok k : forall p m, PRE k p m ->
    exists v, v_load f (rbits s / 8) p k m = Ok v /\ wfv s v /\ length v = k /\ lanes w s v = array w p (vlen w s k) m.
  Proof.
    induction k; intros p m HP.
    - exists []. split; [reflexivity|split; [constructor|split; reflexivity]].
    - destruct (P _ _ _ HP) as (E & Ha & HP'). destruct (IHk _ _ HP') as (v & Ev & Wv & Lv & Av).
      exists (view (rbits s) p m :: v). cbn [v_load]. rewrite E. cbn [bind]. rewrite Ev. cbn [bind]. split; [reflexivity|]. split; [|split].
      + apply Forall_cons; [apply view_reg; destruct s; reflexivity|exact Wv].
      + cbn. rewrite Lv. reflexivity.
      + rewrite lanes_cons, Av, vlen_S, array_app, (len_bytes w s W1 W2). f_equal.
        apply elems_view; auto.
  Qed.
End Ld.
