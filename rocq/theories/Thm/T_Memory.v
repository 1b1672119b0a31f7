(** C22: loads and stores move exactly the elements they should. *)
From Verif Require Export Proof.LoadStoreP4.

Lemma acc_step m p s k : accessible m p (vbytes s (S k)) ->
  accessible m p (rbits s / 8) /\ accessible m (p + rbits s / 8) (vbytes s k).
Proof.
  unfold vbytes. intros H. assert (0 < rbits s / 8) by (destruct s; reflexivity).
  split; eapply acc_sub; eauto; try lia.
Qed.
Lemma mod_step p s : p mod (rbits s / 8) = 0 -> (p + rbits s / 8) mod (rbits s / 8) = 0.
Proof.
  assert (0 < rbits s / 8) by (destruct s; reflexivity). intros H1.
  rewrite Z.add_mod, Z.mod_same, H1 by lia. apply Z.mod_0_l. lia.
Qed.
Lemma mod_el p e s : p mod (eb e / 8) = 0 -> (p + rbits s / 8) mod (eb e / 8) = 0.
Proof.
  intros H. rewrite Z.add_mod, H by (destruct e; discriminate). destruct e, s; reflexivity.
Qed.

(** when p needs extra accessible bytes: AltiVec without VSX *)
Definition loadu_pre (A : arch) (e : et) (s : rsz) (k : nat) (p : Z) (m : mem) : Prop :=
  aligned_array (eb e / 8) s p k m /\
  (use_altivec A = true -> use_vsx206 A = false ->
     blocks_around s p k m /\ (p mod 16 = 0 -> accessible m p (vbytes s k + 16))).
Definition storeu_pre (A : arch) (e : et) (s : rsz) (p : Z) (k : nat) (m : mem) : Prop :=
  aligned_array (eb e / 8) s p k m /\
  (use_altivec A = true -> use_vsx206 A = false -> blocks_around s p k m).

(** rounding to 16-byte blocks *)
Lemma around_step p k m : blocks_around R128 p (S k) m ->
  accessible m (blk p) 16 /\ accessible m (blk (p + 15)) 16 /\ blocks_around R128 (p + 16) k m.
Proof.
  unfold blocks_around, blk, vbytes. change (rbits R128 / 8) with 16. intros H.
  assert (E0 : Z.of_nat (S k) * 16 = 16 + Z.of_nat k * 16) by lia. rewrite E0 in H.
  replace (p + (16 + Z.of_nat k * 16)) with (p + 16 + Z.of_nat k * 16) in H by lia.
  set (E := p + 16 + Z.of_nat k * 16) in *.
  assert (HM : (p + 16) mod 16 = p mod 16) by (replace (p + 16) with (p + 1 * 16) by lia; apply Z.mod_add; lia).
  pose proof (Z.mod_pos_bound p 16 ltac:(lia)) as B1. pose proof (Z.mod_pos_bound (p + 15) 16 ltac:(lia)) as B2.
  pose proof (Z.mod_pos_bound (- E) 16 ltac:(lia)) as B3.
  assert (M3 : (- E) mod 16 = (- p) mod 16).
  { unfold E. replace (- (p + 16 + Z.of_nat k * 16)) with (- p + - (1 + Z.of_nat k) * 16) by lia. apply Z.mod_add. lia. }
  assert (X : p + 15 - (p + 15) mod 16 + 16 <= E + (- E) mod 16).
  { pose proof (Z.div_mod (p + 15) 16 ltac:(lia)). pose proof (Z.div_mod (- p) 16 ltac:(lia)). rewrite M3. unfold E. lia. }
  split; [|split].
  - eapply acc_sub; [exact H| |]; unfold E in *; lia.
  - eapply acc_sub; [exact H| |]; unfold E in *; lia.
  - rewrite HM. eapply acc_sub; [exact H| |]; unfold E in *; lia.
Qed.
Lemma blk_next p m : accessible m (blk p) 16 -> accessible m (blk (p + 15)) 16 ->
  (p mod 16 = 0 -> accessible m (p + 16) 16) -> accessible m (blk p) 32.
Proof.
  unfold blk. intros H1 H2 H3 q Hq.
  destruct (Z_lt_dec q (p - p mod 16 + 16)); [apply H1; lia|].
  pose proof (Z.mod_pos_bound p 16 ltac:(lia)). destruct (Z.eq_dec (p mod 16) 0) as [E|N].
  - apply H3; auto. lia.
  - apply H2. pose proof (Z.div_mod p 16 ltac:(lia)). pose proof (Z.div_mod (p + 15) 16 ltac:(lia)).
    pose proof (Z.mod_pos_bound (p + 15) 16 ltac:(lia)). lia.
Qed.

Lemma app_len_inv {X} (l l' r r' : list X) : l ++ r = l' ++ r' -> length l = length l' -> l = l' /\ r = r'.
Proof.
  revert l'. induction l; destruct l'; cbn; intros E L; try discriminate; auto.
  injection E as -> E. destruct (IHl l' E) as [-> ->]; auto.
Qed.

Section T.
  Variables (A : arch) (e : et) (s : rsz).
  Hypotheses (HV : valid_arch A = true) (HA : avail_et A e s = true).
  Let w := eb e.
  Let R := rbits s.
  Let Hw1 : wok w R = true. Proof. unfold w, R. destruct e, s; reflexivity. Qed.
  Let Hw2 : wok 8 w = true. Proof. unfold w. destruct e; reflexivity. Qed.

  (** load reads the vector that lies in memory at the (register-)aligned address. *)
  Theorem load_spec k : loads w s k (fun p m => aligned_array (R / 8) s p k m) (fun p m => load A e s p k m).
  Proof.
    intros p m HP. unfold load.
    apply (v_load_ok w s (i_load A e s) (fun k p m => aligned_array (R / 8) s p k m)); auto.
    clear - HV HA. intros k p m [Hp Ha]. destruct (acc_step _ _ _ _ Ha) as [A1 A2].
    split; [apply i_load_ok; auto|split; auto]. split; auto. apply mod_step. auto.
  Qed.
  (** load_u needs only the alignment of an element.  On AltiVec without VSX the 16-byte blocks
      around the array must be accessible too, which the documentation allows; PARTIAL: if the
      address is a multiple of 16 the block after the array must be accessible as well (see
      load_u_refuted). *)
  Theorem load_u_partial k : loads w s k (loadu_pre A e s k) (fun p m => load_u A e s p k m).
  Proof.
    intros p m HP. unfold load_u.
    apply (v_load_ok w s (i_load_u A e s) (loadu_pre A e s)); auto.
    clear - HV HA. intros k p m [[Hp Ha] Hx]. destruct (acc_step _ _ _ _ Ha) as [A1 A2].
    destruct (use_altivec A && negb (use_vsx206 A)) eqn:EX.
    - apply andb_true_iff in EX as [X1 X2]. apply negb_true_iff in X2. specialize (Hx X1 X2). destruct Hx as [Hb H16].
      assert (Es : s = R128). { clear - HV HA X1. destruct s; auto; exfalso; cbn in HA; destruct e; cbn in HA; fam HV; fcontra. }
      rewrite Es in *. destruct (around_step _ _ _ Hb) as (B1 & B2 & B3). cbn [rbits] in *. change (128 / 8) with 16 in *.
      split; [|split; auto].
      + apply i_load_u_ok; auto; [split; auto|]. intros _. apply blk_next; auto. intros E0. specialize (H16 E0).
        eapply acc_sub; [exact H16|lia|]. unfold vbytes. cbn [rbits]. change (128 / 8) with 16. lia.
      + split; [split; auto; apply (mod_el p e R128 Hp)|]. intros _ _. split; auto. intros E0.
        replace (p + 16) with (p + 1 * 16) in E0 by lia. rewrite Z.mod_add in E0 by lia. specialize (H16 E0).
        eapply acc_sub; [exact H16|lia|]. unfold vbytes. cbn [rbits]. change (128 / 8) with 16. lia.
    - assert (NX : use_altivec A = true -> use_vsx206 A = false -> False).
      { intros X1 X2. rewrite X1, X2 in EX. discriminate. }
      split; [|split; auto].
      + apply i_load_u_ok; auto; [split; auto|]. unfold vmx. rewrite EX. discriminate.
      + split; [split; auto; apply (mod_el p e s Hp)|]. intros X1 X2. destruct (NX X1 X2).
  Qed.

  Lemma run_sel (PRE : nat -> Z -> mem -> Prop) (pre : Z -> mem -> Prop) :
    (forall k p m, PRE (S k) p m -> pre p m /\ accessible m p (R / 8)) ->
    (forall k p m m', PRE (S k) p m -> only_changes p (R / 8) m m' -> PRE k (p + R / 8) m') ->
    (forall k p m, PRE k p m -> accessible m p (Z.of_nat k * (R / 8))) ->
    forall c ops p v m, Forall2 (good w s pre) ops (sels (nl w R) c 0 v) -> PRE (length v) p m ->
    exists m', run ops (R / 8) p m = Ok m' /\
      array w p (vlen w s (length v)) m' =
        new_masked (map (fun i => c (Z.of_nat i)) (seq 0 (length (lanes w s v)))) (lanes w s v)
          (array w p (vlen w s (length v)) m) /\
      only_changes p (vbytes s (length v)) m m'.
  Proof.
    intros P1 P2 P3 c ops p v m Hg HP.
    destruct (run_ok w s Hw1 Hw2 PRE pre P1 P2 P3 ops (sels (nl w R) c 0 v) Hg p m) as (m' & E & EA & O).
    - rewrite sels_len. exact HP.
    - rewrite sels_len in *. exists m'. split; [exact E|split; [|exact O]]. rewrite EA, sels_fst, sels_bools.
      rewrite lanes_length. rewrite (Nat.mul_comm (nl w (rbits s))). reflexivity.
  Qed.
  Lemma good_map (pre : Z -> mem -> Prop) (f : Z -> Z -> mem -> res mem) c : forall v j,
    (forall a k, In a v -> reg R a -> (j <= k < j + length v)%nat ->
       good w s pre (fun p m => f p a m) (a, fun i => c (Z.of_nat (k * nl w R) + i))) ->
    wfv s v -> Forall2 (good w s pre) (map (fun a p m => f p a m) v) (sels (nl w R) c j v).
  Proof.
    induction v; intros j H Hv; cbn [map sels]; constructor.
    - apply H; [left; reflexivity|apply Forall_inv in Hv; exact Hv|cbn; lia].
    - apply IHv; [|apply Forall_inv_tail in Hv; exact Hv]. intros x k Hx Hr Hk. apply H; [right; auto|auto|cbn; lia].
  Qed.
  Lemma len_pos : 0 < R / w /\ Z.of_nat (nl w R) = R / w.
  Proof. destruct (wok_spec _ _ Hw1) as (Hw & HR & E & En). unfold nl. rewrite Z2Nat.id by lia. lia. Qed.
  Lemma arr_len v m p : length (array w p (vlen w s (length v)) m) = length (lanes w s v).
  Proof. rewrite array_len, lanes_length. unfold vlen. lia. Qed.

  Lemma stores_all op f (PRE : nat -> Z -> mem -> Prop) (pre : Z -> mem -> Prop) :
    (forall k p m, PRE (S k) p m -> pre p m /\ accessible m p (R / 8)) ->
    (forall k p m m', PRE (S k) p m -> only_changes p (R / 8) m m' -> PRE k (p + R / 8) m') ->
    (forall k p m, PRE k p m -> accessible m p (Z.of_nat k * (R / 8))) ->
    (forall p a m, reg R a -> pre p m -> accessible m p (R / 8) -> stored w R all a p m (f p a m)) ->
    (forall p v m, PRE (length v) p m -> op p v m = v_store f (R / 8) p v m) ->
    stores w s (fun p k m => PRE k p m) op new_all.
  Proof.
    intros P1 P2 P3 Hf Hop p v m Hv HP. rewrite Hop by auto. rewrite v_store_run.
    destruct (run_sel PRE pre P1 P2 P3 (fun _ => true) (map (fun a p m => f p a m) v) p v m) as (m' & E & EA & O); auto.
    - apply good_map; auto. intros a k _ Ha _ q m0 Hq Hac. apply Hf; auto.
    - exists m'. split; [exact E|split; [|exact O]]. rewrite EA. unfold new_all.
      replace (map _ (seq 0 _)) with (map (fun _ : Z => true) (lanes w s v)).
      + apply new_masked_all. apply arr_len.
      + generalize 0%nat. generalize (lanes w s v). clear. induction l; intros k; cbn; auto. f_equal. apply IHl.
  Qed.
  (** store / stream write the whole vector at a register-aligned address *)
  Lemma al_P1 k p m : aligned_array (R / 8) s p (S k) m -> p mod (R / 8) = 0 /\ accessible m p (R / 8).
  Proof. intros [Hp Ha]. split; auto. eapply acc_step; eauto. Qed.
  Lemma al_P2 k p m m' : aligned_array (R / 8) s p (S k) m -> only_changes p (R / 8) m m' -> aligned_array (R / 8) s (p + R / 8) k m'.
  Proof.
    intros [Hp Ha] O. split; [apply mod_step; auto|]. eapply only_acc; [exact O|]. eapply acc_step; eauto.
  Qed.
  Lemma al_P3 k p m : aligned_array (R / 8) s p k m -> accessible m p (Z.of_nat k * (R / 8)).
  Proof. intros [Hp Ha]. exact Ha. Qed.
  Lemma al_req {X} k p m (r : res X) : aligned_array (R / 8) s p k m -> assume_aligned (R / 8) p r = r.
  Proof. intros [Hp _]. unfold assume_aligned, aligned. rewrite Hp. reflexivity. Qed.

  Theorem store_spec : stores w s (aligned_array (R / 8) s) (store A e s) new_all.
  Proof.
    apply (stores_all _ (i_store A e s) (fun k p m => aligned_array (R / 8) s p k m) (fun p m => p mod (R / 8) = 0));
      [exact al_P1|exact al_P2|exact al_P3| |].
    - intros. apply i_store_ok; auto.
    - intros p v m HP. unfold store. exact (al_req _ _ _ _ HP).
  Qed.
  Theorem stream_spec : stores w s (aligned_array (R / 8) s) (stream A e s) new_all.
  Proof.
    apply (stores_all _ (i_stream A e s) (fun k p m => aligned_array (R / 8) s p k m) (fun p m => p mod (R / 8) = 0));
      [exact al_P1|exact al_P2|exact al_P3| |].
    - intros. apply i_stream_ok; auto.
    - intros p v m HP. unfold stream. exact (al_req _ _ _ _ HP).
  Qed.
  (** store_u writes the whole vector at an address aligned to an element only *)
  Theorem store_u_spec : stores w s (storeu_pre A e s) (store_u A e s) new_all.
  Proof.
    apply (stores_all _ (i_store_u A e s) (fun k p m => storeu_pre A e s p k m)
             (fun p m => p mod (w / 8) = 0 /\ (vmxs A e = true -> two_blocks p m))).
    - intros k p m [[Hp Ha] Hx]. destruct (acc_step _ _ _ _ Ha) as [A1 A2]. split; auto. split; auto.
      unfold vmxs. intros X. apply andb_true_iff in X as [X X3]. apply andb_true_iff in X as [X1 X2]. apply negb_true_iff in X2.
      specialize (Hx X1 X2). assert (Es : s = R128). { clear - HV HA X1. destruct s; auto; exfalso; cbn in HA; destruct e; cbn in HA; fam HV; fcontra. }
      rewrite Es in *. destruct (around_step _ _ _ Hx) as (B1 & B2 & B3). split; auto.
    - intros k p m m' [[Hp Ha] Hx] O. destruct (acc_step _ _ _ _ Ha) as [A1 A2]. split; [split; [apply (mod_el p e s Hp)|eapply only_acc; eauto]|].
      intros X1 X2. specialize (Hx X1 X2). assert (Es : s = R128). { clear - HV HA X1. destruct s; auto; exfalso; cbn in HA; destruct e; cbn in HA; fam HV; fcontra. }
      unfold R in *. rewrite Es in *. destruct (around_step _ _ _ Hx) as (B1 & B2 & B3). cbn [rbits] in *. change (128 / 8) with 16 in *.
      unfold blocks_around in *. eapply only_acc; eauto.
    - intros k p m [[Hp Ha] _]. exact Ha.
    - intros p a m Ha [Hp Hx] Hacc. apply i_store_u_ok; auto. split; auto.
    - reflexivity.
  Qed.

  (** what is stored can be loaded back *)
  Theorem load_store_roundtrip p v m : wfv s v -> aligned_array (R / 8) s p (length v) m ->
    exists m', store A e s p v m = Ok m' /\ load A e s p (length v) m' = Ok v.
  Proof.
    intros Hv HP. destruct (store_spec p v m Hv HP) as (m' & E & EA & O). exists m'. split; auto.
    destruct (load_spec (length v) p m') as (v' & E' & Wv & Lv & Av).
    - destruct HP as [Hp Ha]. split; auto. exact (proj2 O).
    - rewrite E'. f_equal. rewrite EA in Av. unfold new_all in Av.
      clear - Hw1 Hv Wv Lv Av. revert v' Wv Lv Av. induction v; destruct v'; intros Wv Lv Av; try discriminate; auto.
      inversion Hv; inversion Wv; subst. rewrite !lanes_cons in Av.
      apply app_len_inv in Av; [|rewrite !elems_length; reflexivity]. destruct Av as [A1 A2]. f_equal.
      + apply (reg_lanes w (rbits s)); auto. intros i Hi.
        destruct (wok_spec _ _ Hw1) as (Hw & HR & E & En).
        assert (L : forall x, lane w i x = nth (Z.to_nat i) (elems w (nl w (rbits s)) x) 0).
        { intros x. rewrite nth_elems by (unfold nl; lia). rewrite Z2Nat.id by lia. reflexivity. }
        rewrite !L, A1. reflexivity.
      + apply IHv; auto.
  Qed.

  (** store_first writes the first n elements, store_last the last n *)
  Theorem store_first_spec n :
    stores w s (fun p k m => aligned_array (R / 8) s p k m /\ 0 <= n <= Z.of_nat (vlen w s k))
      (fun p v m => store_first A e s p v n m) (new_first (Z.to_nat n)).
  Proof.
    intros p v m Hv [HP Hn]. destruct len_pos as [LP LN]. unfold vlen in Hn. fold R in Hn. rewrite Nat2Z.inj_mul, LN in Hn.
    unfold store_first. fold R. fold w. rewrite (al_req _ _ _ _ HP).
    set (full := n / (R / w)). set (mid := n mod (R / w)).
    pose proof (Z.div_mod n (R / w) ltac:(lia)) as DM. pose proof (Z.mod_pos_bound n (R / w) LP) as MB. fold full mid in DM, MB.
    assert (Hf0 : 0 <= full) by (apply Z.div_pos; lia).
    assert (Hf1 : full <= Z.of_nat (length v)) by nia.
    set (c := fun i => i <? n).
    assert (G1 : forall k a, Z.of_nat k < full -> reg R a -> good w s (fun p m => p mod (R / 8) = 0) (fun p m => i_store A e s p a m) (a, fun i => c (Z.of_nat (k * nl w R) + i))).
    { intros k a Hk Ha q m0 Hq Hac. cbn [fst snd]. eapply stored_ext; [exact Hw1|exact Hw2| |apply i_store_ok; auto].
      intros i Hi. unfold all, c. symmetry. apply Z.ltb_lt. rewrite Nat2Z.inj_mul, LN. fold R w in Hi. nia. }
    assert (G2 : forall k a, Z.of_nat k = full -> reg R a -> good w s (fun p m => p mod (R / 8) = 0) (fun p m => i_store_first A e s p a mid m) (a, fun i => c (Z.of_nat (k * nl w R) + i))).
    { intros k a Hk Ha q m0 Hq Hac. cbn [fst snd]. eapply stored_ext; [exact Hw1|exact Hw2| |apply i_store_first_ok; auto].
      intros i Hi. unfold c. rewrite Nat2Z.inj_mul, LN, Hk. destruct (Z.ltb_spec i mid), (Z.ltb_spec (full * (R / w) + i) n); auto; nia. }
    assert (G3 : forall k a, n <= Z.of_nat k * (R / w) -> good w s (fun p m => p mod (R / 8) = 0) (fun p m => Ok m) (a, fun i => c (Z.of_nat (k * nl w R) + i))).
    { intros k a Hk q m0 Hq Hac. cbn [fst snd]. apply (stored_ext w R (fun _ => false)); auto.
      - intros i Hi. unfold c. symmetry. apply Z.ltb_ge. rewrite Nat2Z.inj_mul, LN. nia.
      - apply stored_none; auto. }
    assert (FIN : forall m', (exists ops, Forall2 (good w s (fun p m => p mod (R / 8) = 0)) ops (sels (nl w R) c 0 v) /\ run ops (R / 8) p m = m') ->
       exists m'', m' = Ok m'' /\ array w p (vlen w s (length v)) m'' = new_first (Z.to_nat n) (lanes w s v) (array w p (vlen w s (length v)) m) /\
         only_changes p (vbytes s (length v)) m m'').
    { intros m' (ops & Hg & <-). destruct (run_sel _ _ al_P1 al_P2 al_P3 c ops p v m Hg HP) as (m'' & E & EA & O).
      exists m''. split; [exact E|split; [|exact O]]. rewrite EA. unfold c. rewrite new_masked_lt by apply arr_len.
      unfold new_first. replace (n - Z.of_nat 0) with n by lia. reflexivity. }
    apply FIN. clear FIN.
    rewrite st_range_run by lia. change (Z.to_nat 0) with 0%nat. cbn [skipn].
    set (v1 := firstn (Z.to_nat full) v). set (v2 := skipn (Z.to_nat full) v).
    assert (EV : v = v1 ++ v2) by (symmetry; apply firstn_skipn).
    assert (L1 : length v1 = Z.to_nat full) by (unfold v1; rewrite firstn_length; lia).
    assert (Wv1 : wfv s v1) by (unfold wfv in *; rewrite EV in Hv; apply Forall_app in Hv; tauto).
    assert (Wv2 : wfv s v2) by (unfold wfv in *; rewrite EV in Hv; apply Forall_app in Hv; tauto).
    assert (F1 : Forall2 (good w s (fun p m => p mod (R / 8) = 0)) (map (fun a p m => i_store A e s p a m) v1) (sels (nl w R) c 0 v1)).
    { apply good_map; auto. intros a k _ Ha Hk. apply G1; auto. lia. }
    assert (F3 : forall v3 j, n <= Z.of_nat j * (R / w) -> Forall2 (good w s (fun p m => p mod (R / 8) = 0)) (map (fun _ p m => Ok m) v3) (sels (nl w R) c j v3)).
    { induction v3; intros j Hj; cbn [map sels]; constructor; [apply G3; auto|apply IHv3; nia]. }
    destruct (Z.ltb_spec 0 mid) as [Hm|Hm].
    - assert (full < Z.of_nat (length v)) by nia. destruct v2 as [|a v3] eqn:E2.
      { rewrite EV, app_nil_r in H. lia. }
      exists (map (fun a p m => i_store A e s p a m) v1 ++ (fun p m => i_store_first A e s p a mid m) :: map (fun _ p m => Ok m) v3). split.
      + rewrite EV, sels_app. apply Forall2_app; auto. cbn [sels]. constructor; [apply G2; [lia|inversion Wv2; auto]|apply F3; lia || nia].
      + rewrite run_app, map_length, L1. destruct (run (map _ v1) (R / 8) p m) as [m1| |]; cbn [bind]; auto.
        unfold vec_at. replace (nth_error v (Z.to_nat full)) with (Some a).
        * cbn [bind run]. rewrite Z2Nat.id by lia. destruct (i_store_first A e s _ a mid m1) as [m2| |]; cbn [bind]; auto. apply run_nops.
        * symmetry. rewrite EV, nth_error_app2 by lia. rewrite L1, Nat.sub_diag. reflexivity.
    - exists (map (fun a p m => i_store A e s p a m) v1 ++ map (fun _ p m => Ok m) v2). split.
      + rewrite EV, sels_app. apply Forall2_app; auto. apply F3. nia.
      + rewrite run_app. destruct (run (map _ v1) (R / 8) p m) as [m1| |]; cbn [bind]; auto. apply run_nops.
  Qed.

  Theorem store_last_spec n :
    stores w s (fun p k m => aligned_array (R / 8) s p k m /\ 0 <= n <= Z.of_nat (vlen w s k))
      (fun p v m => store_last A e s p v n m) (new_last (Z.to_nat n)).
  Proof.
    intros p v m Hv [HP Hn]. destruct len_pos as [LP LN]. unfold vlen in Hn. fold R in Hn. rewrite Nat2Z.inj_mul, LN in Hn.
    unfold store_last. fold R. fold w. rewrite (al_req _ _ _ _ HP).
    set (t := Z.of_nat (length v) * (R / w) - n).
    set (empty := t / (R / w)). set (mid := n mod (R / w)).
    pose proof (Z.div_mod t (R / w) ltac:(lia)) as DT. pose proof (Z.mod_pos_bound t (R / w) LP) as TB. fold empty in DT.
    pose proof (Z.div_mod n (R / w) ltac:(lia)) as DM. pose proof (Z.mod_pos_bound n (R / w) LP) as MB. fold mid in DM, MB.
    assert (Ht : 0 <= t) by (unfold t; lia).
    assert (Hf0 : 0 <= empty) by (apply Z.div_pos; lia).
    assert (Hf1 : empty <= Z.of_nat (length v)) by (unfold t in *; nia).
    assert (TM : t mod (R / w) = if 0 <? mid then R / w - mid else 0).
    { clear - LP DM MB. unfold t. destruct (Z.ltb_spec 0 mid).
      - symmetry. apply (Z.mod_unique _ _ (Z.of_nat (length v) - n / (R / w) - 1)); [left; lia|nia].
      - symmetry. apply (Z.mod_unique _ _ (Z.of_nat (length v) - n / (R / w))); [left; lia|nia]. }
    set (c := fun i => t <=? i).
    assert (G1 : forall k a, t <= Z.of_nat k * (R / w) -> reg R a -> good w s (fun p m => p mod (R / 8) = 0) (fun p m => i_store A e s p a m) (a, fun i => c (Z.of_nat (k * nl w R) + i))).
    { intros k a Hk Ha q m0 Hq Hac. cbn [fst snd]. eapply stored_ext; [exact Hw1|exact Hw2| |apply i_store_ok; auto].
      intros i Hi. unfold all, c. symmetry. apply Z.leb_le. rewrite Nat2Z.inj_mul, LN. nia. }
    assert (G2 : forall k a, 0 < mid -> Z.of_nat k = empty -> reg R a -> good w s (fun p m => p mod (R / 8) = 0) (fun p m => i_store_last A e s p a mid m) (a, fun i => c (Z.of_nat (k * nl w R) + i))).
    { intros k a Hm Hk Ha q m0 Hq Hac. cbn [fst snd]. eapply stored_ext; [exact Hw1|exact Hw2| |apply i_store_last_ok; auto].
      intros i Hi. unfold c. rewrite Nat2Z.inj_mul, LN, Hk. fold R w.
      destruct (Z.ltb_spec 0 mid); [|lia].
      destruct (Z.leb_spec (R / w - mid) i), (Z.leb_spec t (empty * (R / w) + i)); auto; nia. }
    assert (G3 : forall k a, Z.of_nat k < empty -> good w s (fun p m => p mod (R / 8) = 0) (fun p m => Ok m) (a, fun i => c (Z.of_nat (k * nl w R) + i))).
    { intros k a Hk q m0 Hq Hac. cbn [fst snd]. apply (stored_ext w R (fun _ => false)); auto.
      - intros i Hi. unfold c. symmetry. apply Z.leb_gt. rewrite Nat2Z.inj_mul, LN. nia.
      - apply stored_none; auto. }
    assert (FIN : forall m', (exists ops, Forall2 (good w s (fun p m => p mod (R / 8) = 0)) ops (sels (nl w R) c 0 v) /\ run ops (R / 8) p m = m') ->
       exists m'', m' = Ok m'' /\ array w p (vlen w s (length v)) m'' = new_last (Z.to_nat n) (lanes w s v) (array w p (vlen w s (length v)) m) /\
         only_changes p (vbytes s (length v)) m m'').
    { intros m' (ops & Hg & <-). destruct (run_sel _ _ al_P1 al_P2 al_P3 c ops p v m Hg HP) as (m'' & E & EA & O).
      exists m''. split; [exact E|split; [|exact O]]. rewrite EA. unfold c. rewrite new_masked_ge by apply arr_len.
      unfold new_last. replace (Z.to_nat (t - Z.of_nat 0)) with (length (lanes w s v) - Z.to_nat n)%nat; auto.
      rewrite lanes_length. fold R. unfold t. rewrite <- LN in Hn |- *. nia. }
    apply FIN. clear FIN.
    set (v1 := firstn (Z.to_nat empty) v). set (v2 := skipn (Z.to_nat empty) v).
    assert (EV : v = v1 ++ v2) by (symmetry; apply firstn_skipn).
    assert (L1 : length v1 = Z.to_nat empty) by (unfold v1; rewrite firstn_length; lia).
    assert (LV : length v = (length v1 + length v2)%nat) by (rewrite EV at 1; apply app_length).
    assert (Wv2 : wfv s v2) by (unfold wfv in *; rewrite EV in Hv; apply Forall_app in Hv; tauto).
    assert (F1 : forall v3 j, wfv s v3 -> t <= Z.of_nat j * (R / w) -> Forall2 (good w s (fun p m => p mod (R / 8) = 0)) (map (fun a p m => i_store A e s p a m) v3) (sels (nl w R) c j v3)).
    { intros v3 j H3 Hj. apply good_map; auto. intros a k _ Ha Hk. apply G1; auto. nia. }
    assert (F3 : forall v3 j, Z.of_nat j + Z.of_nat (length v3) <= empty -> Forall2 (good w s (fun p m => p mod (R / 8) = 0)) (map (fun _ p m => Ok m) v3) (sels (nl w R) c j v3)).
    { induction v3; intros j Hj; cbn [map sels length] in *; constructor; [apply G3; lia|apply IHv3; lia]. }
    destruct (Z.ltb_spec 0 mid) as [Hm|Hm].
    - assert (empty < Z.of_nat (length v)) by nia. destruct v2 as [|a v3] eqn:E2.
      { cbn in LV. lia. }
      cbn [length] in LV.
      assert (S2 : skipn (Z.to_nat (empty + 1)) v = v3).
      { rewrite EV. replace (Z.to_nat (empty + 1)) with (length v1 + 1)%nat by lia.
        rewrite skipn_app. rewrite skipn_all2 by lia. replace (length v1 + 1 - length v1)%nat with 1%nat by lia. reflexivity. }
      exists (map (fun _ p m => Ok m) v1 ++ (fun p m => i_store_last A e s p a mid m) :: map (fun a p m => i_store A e s p a m) v3). split.
      + rewrite EV, sels_app. apply Forall2_app; [apply F3; lia|]. cbn [sels]. constructor; [apply G2; [auto|lia|inversion Wv2; auto]|].
        apply F1; [inversion Wv2; auto|nia].
      + rewrite run_app, map_length, L1, run_nops. cbn [bind run]. rewrite Z2Nat.id by lia.
        unfold vec_at. replace (nth_error v (Z.to_nat empty)) with (Some a).
        * cbn [bind]. destruct (i_store_last A e s _ a mid m) as [m2| |]; cbn [bind]; auto.
          rewrite st_range_run by lia. rewrite S2. rewrite firstn_all2 by lia. reflexivity.
        * symmetry. rewrite EV, nth_error_app2 by lia. rewrite L1, Nat.sub_diag. reflexivity.
    - exists (map (fun _ p m => Ok m) v1 ++ map (fun a p m => i_store A e s p a m) v2). split.
      + rewrite EV, sels_app. apply Forall2_app; [apply F3; lia|]. apply F1; auto. nia.
      + rewrite run_app, map_length, L1, run_nops. cbn [bind run]. rewrite Z2Nat.id by lia.
        rewrite st_range_run by lia. fold v2. rewrite firstn_all2 by lia. reflexivity.
  Qed.
End T.

(** store_masked writes the elements whose mask element is true. *)
Lemma good_zip w s pre (f : Z -> Z -> Z -> mem -> res mem) (P : (Z -> bool) -> Z -> Prop) :
  (forall a k sel, reg (rbits s) a -> P sel k -> good w s pre (fun p m => f p a k m) (a, sel)) ->
  forall v vk sl, wfv s v -> length vk = length v -> Forall2 P sl vk ->
  Forall2 (good w s pre) (zipw (fun a c p m => f p a c m) v vk) (zipw pair v sl).
Proof.
  intros H. induction v; intros vk sl Hv Lk HP; cbn; [constructor|]. destruct vk; try discriminate. inversion HP; subst. cbn.
  inversion Hv; subst. constructor; [apply H; auto|apply IHv; auto].
Qed.
Lemma masks_sels k w s : forall vm bs, masks_k k w s vm bs ->
  exists sl, Forall2 (fun sel m => mask_rel k w (rbits s) m sel) sl vm /\ bs = flat_map (bools (nl w (rbits s))) sl.
Proof.
  induction vm; cbn; intros bs H.
  - subst. exists []. split; [constructor|reflexivity].
  - destruct H as (p & bs' & Hr & -> & H). destruct (IHvm _ H) as (sl & F & ->). exists (p :: sl). split; [constructor; auto|reflexivity].
Qed.
Lemma zip_fst {X Y} (v : list X) : forall (sl : list Y), length sl = length v -> map fst (zipw pair v sl) = v.
Proof. induction v; destruct sl; cbn; intros; try discriminate; auto. f_equal. apply IHv. lia. Qed.
Lemma zip_snd {X Y K} (f : Y -> list K) (v : list X) : forall (sl : list Y), length sl = length v ->
  flat_map (fun x => f (snd x)) (zipw pair v sl) = flat_map f sl.
Proof. induction v; destruct sl; cbn; intros; try discriminate; auto. f_equal. apply IHv. lia. Qed.
Lemma stores_masked (w : Z) (s : rsz) k f vm bs : wok w (rbits s) = true -> wok 8 w = true ->
  masks_k k w s vm bs ->
  (forall a c sel, reg (rbits s) a -> mask_rel k w (rbits s) c sel -> good w s (fun p m => p mod (rbits s / 8) = 0) (fun p m => f p a c m) (a, sel)) ->
  stores w s (fun p n m => aligned_array (rbits s / 8) s p n m /\ n = length vm)
    (fun p v m => v_store2 f (rbits s / 8) p v vm m) (new_masked bs).
Proof.
  intros W1 W2 Hm Hg p v m Hv [HP Hl]. destruct (masks_sels _ _ _ _ _ Hm) as (sl & F & ->).
  assert (Ls : length sl = length v) by (rewrite Hl; clear - F; induction F; cbn; congruence).
  rewrite v_store2_run by auto.
  destruct (run_ok w s W1 W2 (fun k p m => aligned_array (rbits s / 8) s p k m) (fun p m => p mod (rbits s / 8) = 0)
              (al_P1 s) (al_P2 s) (al_P3 s) _ _
              (good_zip w s _ f (fun sel c => mask_rel k w (rbits s) c sel) (fun a c sel Ha Hr => Hg a c sel Ha Hr) v vm sl Hv (eq_sym Hl) F) p m) as (m' & E & EA & O).
  - replace (length (zipw pair v sl)) with (length v); [exact HP|]. rewrite <- (zip_fst v sl Ls) at 1. apply map_length.
  - assert (LZ : length (zipw pair v sl) = length v) by (rewrite <- (zip_fst v sl Ls) at 2; rewrite map_length; reflexivity).
    rewrite LZ in *. exists m'. split; [exact E|split; [|exact O]]. rewrite EA, zip_fst by auto. f_equal.
    apply (zip_snd (bools (nl w (rbits s)))); auto.
Qed.
Theorem store_masked_spec A w s vm bs : valid_arch A = true -> avail_int A (wb w) s = true -> w = W32 \/ w = W64 ->
  masks A w s vm bs ->
  stores (wb w) s (fun p k m => aligned_array (rbits s / 8) s p k m /\ k = length vm)
    (fun p v m => store_masked A w s p v vm m) (new_masked bs).
Proof.
  intros HV HA Hw Hm. apply (stores_masked (wb w) s (mk_int A w s)); auto; try (destruct w, s; reflexivity).
  intros a c sel Ha Hr p m Hp Hac. apply i_store_masked_ok; auto.
Qed.
Theorem store_masked_float_spec A d s vm bs : valid_arch A = true -> avail_flt A s = true ->
  masks_k (mk_flt A d s) (fw d) s vm bs ->
  stores (fw d) s (fun p k m => aligned_array (rbits s / 8) s p k m /\ k = length vm)
    (fun p v m => store_masked_f A d s p v vm m) (new_masked bs).
Proof.
  intros HV HA Hm. apply (stores_masked (fw d) s (mk_flt A d s)); auto; try (destruct d, s; reflexivity).
  intros a c sel Ha Hr p m Hp Hac. apply f_store_masked_ok; auto.
Qed.

(** A concrete memory: [n] bytes 0, 1, 2, ... at address [p]. *)
Definition ramp (p n : Z) : mem := fun q => if (p <=? q) && (q <? p + n) then Some ((q - p) mod 256) else None.
Lemma ramp_acc p n : accessible (ramp p n) p n.
Proof.
  intros q Hq. unfold ramp. destruct (Z.leb_spec p q), (Z.ltb_spec q (p + n)); cbn [andb]; try lia.
  eexists. split; [reflexivity|]. apply Z.mod_pos_bound. lia.
Qed.

(** Finding: with only the 16 bytes at an aligned address accessible, load_u of uint8<16> on
    AltiVec without VSX touches memory behind them, although core/load_u.h:47-49 promises that
    only the referenced block is accessed. *)
Theorem load_u_refuted : exists A p m,
  valid_arch A = true /\ avail_et A I8 R128 = true /\ aligned_array 16 R128 p 1 m /\
  load A I8 R128 p 1 m = Ok [view 128 p m] /\ load_u A I8 R128 p 1 m = UB.
Proof.
  exists arch_altivec, 64, (ramp 64 16). split; [vm_compute; reflexivity|]. split; [vm_compute; reflexivity|]. split.
  - split; [reflexivity|]. apply (ramp_acc 64 16).
  - split; vm_compute; reflexivity.
Qed.

Example memory_case :
  (let* v := load_u arch_sse2 I16 R128 66 1 (ramp 64 32) in Ok (map (fun r => lane 16 0 r) v)) = Ok [0x0302] /\
  (let* m := store_first arch_neon64 F32 R128 64 [2 ^ 128 - 1; 2 ^ 128 - 1] 5 (ramp 64 32) in Ok (array 32 64 8 m))
    = Ok [0xffffffff; 0xffffffff; 0xffffffff; 0xffffffff; 0xffffffff; 0x17161514; 0x1b1a1918; 0x1f1e1d1c] /\
  (let* m := store_last arch_avx2 I8 R256 64 [0] 3 (ramp 64 32) in Ok (array 8 92 4 m)) = Ok [28; 0; 0; 0] /\
  (let* m := store_masked arch_null W32 R128 64 [2 ^ 128 - 1] [0x01000100] (ramp 64 16) in Ok (array 32 64 4 m))
    = Ok [0x03020100; 0xffffffff; 0x0b0a0908; 0xffffffff].
Proof. repeat split; vm_compute; reflexivity. Qed.
