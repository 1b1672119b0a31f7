(** Masks: conversions and boolean operations respect the meaning of masks. *)
From Verif Require Export Spec.Masks Proof.BitwiseP.

(** the computation succeeds with a result satisfying P *)
Definition Rok {X} (P : X -> Prop) (r : res X) : Prop :=
  match r with Ok x => P x | _ => False end.
Lemma Rok_ex {X} (P : X -> Prop) r : Rok P r <-> exists x, r = Ok x /\ P x.
Proof.
  split.
  - destruct r; cbn; intros; try tauto. eauto.
  - intros (x & -> & H). exact H.
Qed.
Lemma Rok_bind {X Y} (P : X -> Prop) (Q : Y -> Prop) r (k : X -> res Y) :
  Rok P r -> (forall x, P x -> Rok Q (k x)) -> Rok Q (let* x := r in k x).
Proof. destruct r; cbn; auto; tauto. Qed.
Lemma Rok_ok {X} (P : X -> Prop) r x : r = Ok x -> P x -> Rok P r.
Proof. intros ->. auto. Qed.

(** Walk down a ladder inside [Rok]. *)
Ltac ladr HV HA leaf :=
  fam HV; repeat split_if;
  lazymatch goal with
  | |- Rok _ UB => vimp HV
  | |- Rok _ NotImpl => first [ cbn in HA; fcontra | vimp HV ]
  | |- _ => first [ leaf | vimp HV ]
  end.

Lemma mask_rel_ext k w R m p q : wok w R = true ->
  (forall i, 0 <= i < R / w -> p i = q i) -> mask_rel k w R m p -> mask_rel k w R m q.
Proof.
  intros H E. destruct (wok_spec _ _ H) as (Hw & HR & ER & En). destruct k; cbn [mask_rel].
  - intros ->. unfold pack, nl. apply mk_ext. intros i Hi.
    assert (8 * (R / w) / 8 = R / w) as E8 by (rewrite Z.mul_comm; apply Z.div_mul; lia).
    rewrite E8 in Hi. rewrite E; auto. lia.
  - intros ->. apply pack_ext; auto. intros i Hi. rewrite E; auto.
  - intros [Hm Hb]. split; auto. intros i Hi. rewrite Hb, E; auto.
Qed.

Lemma wok_mask w s : wok 8 (8 * (rbits s / wb w)) = true.
Proof. destruct w, s; reflexivity. Qed.
Lemma nmask w s : 8 * (rbits s / wb w) / 8 = rbits s / wb w.
Proof. destruct w, s; reflexivity. Qed.
Lemma lane_mnull w s p i : 0 <= i < rbits s / wb w ->
  lane 8 i (pack 8 (8 * (rbits s / wb w)) (fun i => Z.b2z (p i))) = Z.b2z (p i).
Proof.
  intros Hi. rewrite lane_pack by (try apply wok_mask; rewrite nmask; auto).
  destruct (p i); reflexivity.
Qed.

(** comparisons into k-masks *)
Lemma testbit_kmask w R p i : wok w R = true -> 0 <= i < R / w ->
  Z.testbit (kmask w R p) i = p i.
Proof.
  intros H Hi. destruct (wok_spec _ _ H) as (Hw & HR & E & En).
  unfold kmask. rewrite testbit_mk by lia. rewrite En.
  destruct (Z.ltb_spec i (1 * (R / w))); [|lia]. cbn [andb].
  rewrite Z.div_1_r, Z.mod_1_r. destruct (p i); reflexivity.
Qed.
Lemma kmask_rel w R p : wok w R = true -> mask_rel KBits w R (kmask w R p) p.
Proof.
  intros H. destruct (wok_spec _ _ H) as (Hw & HR & E & En). split.
  - unfold kmask. apply mk_range. lia.
  - intros. apply testbit_kmask; auto.
Qed.

(** c_bool of a stored null mask element *)
Lemma c_bool_mnull w s p i : 0 <= i < rbits s / wb w ->
  c_bool (el c_u8 (pack 8 (8 * (rbits s / wb w)) (fun i => Z.b2z (p i))) i) = p i.
Proof.
  intros Hi. unfold el, c_bool. cbn [snd c_u8]. rewrite lane_mnull by auto. destruct (p i); reflexivity.
Qed.
Lemma sto_lit0 t : 0 < snd t -> sto t (c_lit 0) = 0.
Proof. intros. unfold sto. cbn. apply wrap_0. Qed.

Theorem unmask_ok A w s m p : avail_int A (wb w) s = true ->
  mask_rel (mk_int A w s) (wb w) (rbits s) m p ->
  unmask A w s m = Ok (pack (wb w) (rbits s) (fun i => tf (wb w) (p i))).
Proof.
  intros HA HM. unfold unmask. destruct (mk_int A w s) eqn:EK.
  - cbn [mask_rel] in HM. subst m. unfold null_unmask. apply (nloop_pack (ut w)); [apply wok_lib|].
    change (snd (ut w)) with (wb w). intros i Hi. rewrite c_bool_mnull by auto.
    eexists; split; [reflexivity|]. destruct (p i); reflexivity.
  - cbn in HM. subst m. reflexivity.
  - destruct HM as [Hm Hb].
    assert (mm_movm (wb w) (rbits s) m = pack (wb w) (rbits s) (fun i => tf (wb w) (p i))) as E.
    { apply pack_ext; auto. intros i Hi. rewrite Hb by auto. reflexivity. }
    assert (mm_maskz_set1 (wb w) (rbits s) m (ones (wb w)) = pack (wb w) (rbits s) (fun i => tf (wb w) (p i))) as E'.
    { apply pack_ext; auto. intros i Hi. rewrite Hb by auto. reflexivity. }
    destruct s, w; try (cbn [rbits] in E; rewrite E; reflexivity); cbn [rbits] in *;
      destruct (use_avx512dq A); rewrite ?E, ?E'; reflexivity.
Qed.

(** Null comparison loops *)
Lemma null_cmp_ok w s f a b p :
  (forall i, 0 <= i < rbits s / wb w ->
     f (el (ut w) a i) (el (ut w) b i) = p i) ->
  null_cmp f (ut w) (rbits s) a b = Ok (pack 8 (8 * (rbits s / wb w)) (fun i => Z.b2z (p i))).
Proof.
  intros Hf. unfold null_cmp. change (snd (ut w)) with (wb w).
  apply (nloop_pack c_u8); [apply wok_mask|]. cbn [c_u8 snd]. rewrite nmask. intros i Hi.
  rewrite Hf by auto. eexists; split; [reflexivity|]. destruct (p i); reflexivity.
Qed.
Lemma null_cmp_s_ok w s f a b p :
  (forall i, 0 <= i < rbits s / wb w ->
     f (el (st w) a i) (el (st w) b i) = p i) ->
  null_cmp f (st w) (rbits s) a b = Ok (pack 8 (8 * (rbits s / wb w)) (fun i => Z.b2z (p i))).
Proof.
  intros Hf. unfold null_cmp. change (snd (st w)) with (wb w).
  apply (nloop_pack c_u8); [apply wok_mask|]. cbn [c_u8 snd]. rewrite nmask. intros i Hi.
  rewrite Hf by auto. eexists; split; [reflexivity|]. destruct (p i); reflexivity.
Qed.

Lemma tf_range w b : 0 < w -> 0 <= tf w b < 2 ^ w.
Proof. intros. pose proof (pow2_pos w ltac:(lia)). unfold tf, ones. destruct b; lia. Qed.
Lemma wrap_tf w b : 0 < w -> wrap w (tf w b) = tf w b.
Proof. intros. apply wrap_small, tf_range. auto. Qed.
Lemma tf_top w b : 0 < w -> Z.testbit (tf w b) (w - 1) = b.
Proof.
  intros. unfold tf. destruct b; [|apply Z.bits_0].
  rewrite testbit_ones by lia. apply Z.ltb_lt. lia.
Qed.
Lemma ones_pos w : 0 < w -> 0 < ones w.
Proof. intros. unfold ones. pose proof (Z.pow_gt_1 2 w ltac:(lia)). lia. Qed.
Lemma tf_nz w b : 0 < w -> negb (tf w b =? 0) = b.
Proof.
  intros. pose proof (ones_pos w H). unfold tf. destruct b; [|reflexivity].
  apply negb_true_iff. apply Z.eqb_neq. lia.
Qed.
Lemma ulane_range w i a : 0 <= lane (wb w) i a < 2 ^ wb w.
Proof. apply lane_range; auto. Qed.
#[global] Hint Resolve ulane_range : core.
(** comparing unsigned elements *)
Lemma c_cmp_u f w a b i : c_cmp f (el (ut w) a i) (el (ut w) b i) = f (lane (wb w) i a) (lane (wb w) i b).
Proof.
  unfold el. change (snd (ut w)) with (wb w). rewrite c_cmp_el by (destruct w; cbn; lia).
  rewrite !u_cconv by auto. reflexivity.
Qed.
Lemma c_cmp_s f w a b i : c_cmp f (el (st w) a i) (el (st w) b i) =
  f (sgn (wb w) (lane (wb w) i a)) (sgn (wb w) (lane (wb w) i b)).
Proof.
  unfold el. change (snd (st w)) with (wb w). rewrite c_cmp_el by (destruct w; cbn; lia). reflexivity.
Qed.

Definition mrelk k w s p m := mask_rel k (wb w) (rbits s) m p.
Definition mrel A w s p m := mask_rel (mk_int A w s) (wb w) (rbits s) m p.
Lemma mrel_ext A w s m p q : (forall i, 0 <= i < rbits s / wb w -> p i = q i) ->
  mrel A w s p m -> mrel A w s q m.
Proof. intros H. apply mask_rel_ext; auto. Qed.
Lemma Rok_mrel_ext A w s r p q : (forall i, 0 <= i < rbits s / wb w -> p i = q i) ->
  Rok (mrel A w s p) r -> Rok (mrel A w s q) r.
Proof. intros H. destruct r; cbn; auto. apply mrel_ext; auto. Qed.

(** vectors of all-ones/zero lanes *)
Definition tfv (w R : Z) (p : Z -> bool) : Z := pack w R (fun i => tf w (p i)).
Lemma lane_tfv w R p i : wok w R = true -> 0 <= i < R / w -> lane w i (tfv w R p) = tf w (p i).
Proof.
  intros H Hi. destruct (wok_spec _ _ H) as (Hw & _). unfold tfv. rewrite lane_pack by auto. apply wrap_tf; auto.
Qed.
Lemma tfv_reg w R p : wok w R = true -> reg R (tfv w R p).
Proof. intros. apply pack_reg; auto. Qed.
#[global] Hint Resolve tfv_reg : core.
Lemma eq_tfv w R p r : wok w R = true -> reg R r ->
  (forall i, 0 <= i < R / w -> lane w i r = tf w (p i)) -> r = tfv w R p.
Proof.
  intros H Hr HL. apply (reg_lanes w R); auto. intros. rewrite lane_tfv by auto. auto.
Qed.
Lemma tfv_eq w R p q : wok w R = true -> (forall i, 0 <= i < R / w -> p i = q i) -> tfv w R p = tfv w R q.
Proof. intros H E. apply pack_ext; auto. intros. rewrite E; auto. Qed.

Lemma kbits_movepi w R p : wok w R = true ->
  mask_rel KBits w R (mm_movepi_mask w R (tfv w R p)) p.
Proof.
  intros H. destruct (wok_spec _ _ H) as (Hw & _). eapply mask_rel_ext; [auto| |apply kmask_rel; auto].
  intros i Hi. cbn beta. rewrite lane_tfv by auto. apply tf_top; auto.
Qed.
Lemma kbits_test w R p : wok w R = true ->
  mask_rel KBits w R (mm_test_mask w R (tfv w R p) (tfv w R p)) p.
Proof.
  intros H. destruct (wok_spec _ _ H) as (Hw & _). eapply mask_rel_ext; [auto| |apply kmask_rel; auto].
  intros i Hi. cbn beta. rewrite lane_tfv, Z.land_diag by auto. apply tf_nz; auto.
Qed.

Theorem i_to_mask_ok A w s p : Rok (mrel A w s p) (i_to_mask A w s (tfv (wb w) (rbits s) p)).
Proof.
  unfold i_to_mask, mrel. destruct s.
  - destruct (mk_int A w R128) eqn:EK; cbn [Rok].
    + unfold null_cmp_neq. erewrite (null_cmp_ok w R128); [|].
      * cbn [Rok mask_rel]. reflexivity.
      * intros i Hi. unfold c_neq. rewrite c_cmp_u, lane_of_zero, lane_tfv by auto. apply tf_nz; auto.
    + reflexivity.
    + apply kbits_movepi; auto.
  - destruct (mk_int A w R256) eqn:EK; cbn [Rok]; try reflexivity; [|apply kbits_movepi; auto].
    unfold mk_int in EK. destruct (use_avx512vl A); discriminate.
  - cbn [mk_int]. destruct w; cbn [Rok]; first [apply kbits_movepi; auto|apply kbits_test; auto].
Qed.

(** ---------- lifting to masks of any length ---------- *)
Lemma masks_cons k w s m vm p bs : mask_rel k w (rbits s) m p -> masks_k k w s vm bs ->
  masks_k k w s (m :: vm) (map (fun i => p (Z.of_nat i)) (seq 0 (nl w (rbits s))) ++ bs).
Proof. intros. exists p, bs. auto. Qed.
Lemma elems_map2 {X} w n (f : Z -> Z -> X) a b :
  zipw f (elems w n a) (elems w n b) = map (fun i => f (lane w (Z.of_nat i) a) (lane w (Z.of_nat i) b)) (seq 0 n).
Proof. unfold elems. apply zipw_map. Qed.

Theorem liftM2_k k w s (op : Z -> Z -> res Z) p :
  (forall a b, reg (rbits s) a -> reg (rbits s) b ->
     Rok (mrelk k w s (fun i => p (lane (wb w) i a) (lane (wb w) i b))) (op a b)) ->
  computesM2_k k w s (vec_impl2 op) p.
Proof.
  intros Hop va. induction va as [|a va IH]; intros [|b vb] Ha Hb Hlen; try discriminate.
  - exists []. repeat split; try constructor.
  - apply wfv_cons in Ha as [Hr Ha]. apply wfv_cons in Hb as [Hrb Hb]. cbn in Hlen.
    destruct (IH vb Ha Hb ltac:(lia)) as (vm & E & L & EM).
    destruct (proj1 (Rok_ex _ _) (Hop a b Hr Hrb)) as (m & Em & Hm).
    exists (m :: vm). cbn [vec_impl2]. rewrite Em, E. cbn [bind]. split; [reflexivity|]. split; [cbn; lia|].
    rewrite !lanes_cons, zipw_app, elems_map2 by (rewrite !elems_length; reflexivity).
    apply (masks_cons _ _ _ _ _ (fun i => p (lane (wb w) i a) (lane (wb w) i b))); auto.
Qed.
Theorem liftM2 A w s (op : Z -> Z -> res Z) p :
  (forall a b, reg (rbits s) a -> reg (rbits s) b ->
     Rok (mrel A w s (fun i => p (lane (wb w) i a) (lane (wb w) i b))) (op a b)) ->
  computesM2 A w s (vec_impl2 op) p.
Proof. exact (liftM2_k (mk_int A w s) w s op p). Qed.

Lemma masks_len k w s vm bs : masks_k k w s vm bs -> length bs = (length vm * nl w (rbits s))%nat.
Proof.
  revert bs. induction vm as [|m vm IH]; cbn; intros bs H; [subst; reflexivity|].
  destruct H as (p & bs' & _ & -> & H). rewrite app_length, map_length, seq_length, (IH _ H). lia.
Qed.
Lemma elems_pack {X} w R f (l : list X) (g : X -> Z) (h : nat -> X) : wok w R = true ->
  l = map h (seq 0 (nl w R)) ->
  (forall i, 0 <= i < R / w -> wrap w (f i) = g (h (Z.to_nat i))) ->
  elems w (nl w R) (pack w R f) = map g l.
Proof.
  intros H -> E. destruct (wok_spec _ _ H) as (Hw & HR & ER & En).
  unfold elems. rewrite map_map. apply map_ext_in. intros i Hi. apply in_seq in Hi.
  rewrite lane_pack, E, Nat2Z.id by (auto; lia). reflexivity.
Qed.
Lemma elems_pack2 w R f (l : list Z) (bs : list bool) (g : Z -> bool -> Z) a p : wok w R = true ->
  (forall i, 0 <= i < R / w -> wrap w (f i) = g (lane w i a) (p i)) ->
  elems w (nl w R) (pack w R f) =
  zipw g (elems w (nl w R) a) (map (fun i => p (Z.of_nat i)) (seq 0 (nl w R))).
Proof.
  intros H E. destruct (wok_spec _ _ H) as (Hw & HR & ER & En).
  unfold elems. rewrite zipw_map. apply map_ext_in. intros i Hi. apply in_seq in Hi.
  rewrite lane_pack, E by (auto; lia). reflexivity.
Qed.

Theorem liftVM_k k w s (op : Z -> Z -> res Z) f :
  (forall x b, 0 <= x < 2 ^ wb w -> 0 <= f x b < 2 ^ wb w) ->
  (forall a m p, reg (rbits s) a -> mrelk k w s p m ->
     op a m = Ok (pack (wb w) (rbits s) (fun i => f (lane (wb w) i a) (p i)))) ->
  computesVM_k k w s (vec_impl2 op) f.
Proof.
  intros Hf Hop va. induction va as [|a va IH]; intros [|m vm] bs Ha HM Hlen; try discriminate.
  - cbn in HM. subst. exists []. repeat split; try constructor.
  - apply wfv_cons in Ha as [Hr Ha]. destruct HM as (p & bs' & Hm & -> & HM). cbn in Hlen.
    destruct (IH vm bs' Ha HM ltac:(lia)) as (vr & E & W & L & EL).
    eexists. cbn [vec_impl2]. rewrite (Hop a m p), E by auto. cbn [bind]. split; [reflexivity|].
    split; [apply wfv_cons; split; auto|]. split; [cbn; lia|].
    rewrite !lanes_cons, zipw_app, EL by (rewrite elems_length, map_length, seq_length; reflexivity).
    f_equal. apply elems_pack2; auto. intros i Hi. apply wrap_small, Hf; auto.
Qed.
Theorem liftVM A w s (op : Z -> Z -> res Z) f :
  (forall x b, 0 <= x < 2 ^ wb w -> 0 <= f x b < 2 ^ wb w) ->
  (forall a m p, reg (rbits s) a -> mrel A w s p m ->
     op a m = Ok (pack (wb w) (rbits s) (fun i => f (lane (wb w) i a) (p i)))) ->
  computesVM A w s (vec_impl2 op) f.
Proof. exact (liftVM_k (mk_int A w s) w s op f). Qed.
Theorem liftMM1_k k w s (op : Z -> res Z) f :
  (forall m p, mrelk k w s p m -> Rok (mrelk k w s (fun i => f (p i))) (op m)) ->
  computesMM1_k k w s (vec_impl1 op) f.
Proof.
  intros Hop vm. induction vm as [|m vm IH]; intros bs HM.
  - cbn in HM. subst. exists []. repeat split; try constructor.
  - destruct HM as (p & bs' & Hm & -> & HM). destruct (IH bs' HM) as (vr & E & L & EL).
    destruct (proj1 (Rok_ex _ _) (Hop m p Hm)) as (x & Ex & Hx).
    exists (x :: vr). cbn [vec_impl1]. rewrite Ex, E. cbn [bind]. split; [reflexivity|]. split; [cbn; lia|].
    rewrite map_app, map_map. apply (masks_cons _ _ _ _ _ (fun i => f (p i))); auto.
Qed.
Theorem liftMM1 A w s (op : Z -> res Z) f :
  (forall m p, mrel A w s p m -> Rok (mrel A w s (fun i => f (p i))) (op m)) ->
  computesMM1 A w s (vec_impl1 op) f.
Proof. exact (liftMM1_k (mk_int A w s) w s op f). Qed.
Theorem liftMM2_k k w s (op : Z -> Z -> res Z) f :
  (forall m n p q, mrelk k w s p m -> mrelk k w s q n -> Rok (mrelk k w s (fun i => f (p i) (q i))) (op m n)) ->
  computesMM2_k k w s (vec_impl2 op) f.
Proof.
  intros Hop vm. induction vm as [|m vm IH]; intros [|n vn] bs cs HM HN Hlen; try discriminate.
  - cbn in HM. subst. exists []. repeat split; try constructor.
  - destruct HM as (p & bs' & Hm & -> & HM). destruct HN as (q & cs' & Hn & -> & HN). cbn in Hlen.
    destruct (IH vn bs' cs' HM HN ltac:(lia)) as (vr & E & L & EL).
    destruct (proj1 (Rok_ex _ _) (Hop m n p q Hm Hn)) as (x & Ex & Hx).
    exists (x :: vr). cbn [vec_impl2]. rewrite Ex, E. cbn [bind]. split; [reflexivity|]. split; [cbn; lia|].
    rewrite zipw_app, zipw_map by (rewrite !map_length; reflexivity).
    apply (masks_cons _ _ _ _ _ (fun i => f (p i) (q i))); auto.
Qed.
Theorem liftMM2 A w s (op : Z -> Z -> res Z) f :
  (forall m n p q, mrel A w s p m -> mrel A w s q n -> Rok (mrel A w s (fun i => f (p i) (q i))) (op m n)) ->
  computesMM2 A w s (vec_impl2 op) f.
Proof. exact (liftMM2_k (mk_int A w s) w s op f). Qed.
Theorem liftMMM_k k w s (op : Z -> Z -> Z -> res Z) f :
  (forall m n o p q r, mrelk k w s p m -> mrelk k w s q n -> mrelk k w s r o ->
     Rok (mrelk k w s (fun i => f (p i) (q i) (r i))) (op m n o)) ->
  computesMMM_k k w s (vec_impl3 op) f.
Proof.
  intros Hop vm. induction vm as [|m vm IH]; intros [|n vn] [|o vo] bs cs ds HM HN HO Hlen1 Hlen2; try discriminate.
  - cbn in HM. subst. exists []. repeat split; try constructor.
  - destruct HM as (p & bs' & Hm & -> & HM). destruct HN as (q & cs' & Hn & -> & HN).
    destruct HO as (r & ds' & Ho & -> & HO). cbn in Hlen1, Hlen2.
    destruct (IH vn vo bs' cs' ds' HM HN HO ltac:(lia) ltac:(lia)) as (vr & E & L & EL).
    destruct (proj1 (Rok_ex _ _) (Hop m n o p q r Hm Hn Ho)) as (x & Ex & Hx).
    exists (x :: vr). cbn [vec_impl3]. rewrite Ex, E. cbn [bind]. split; [reflexivity|]. split; [cbn; lia|].
    rewrite zipw3_app, zipw3_map by (rewrite !map_length; reflexivity).
    apply (masks_cons _ _ _ _ _ (fun i => f (p i) (q i) (r i))); auto.
Qed.
Theorem liftMMM A w s (op : Z -> Z -> Z -> res Z) f :
  (forall m n o p q r, mrel A w s p m -> mrel A w s q n -> mrel A w s r o ->
     Rok (mrel A w s (fun i => f (p i) (q i) (r i))) (op m n o)) ->
  computesMMM A w s (vec_impl3 op) f.
Proof. exact (liftMMM_k (mk_int A w s) w s op f). Qed.
Theorem liftVVM_k k w s (op : Z -> Z -> Z -> res Z) f :
  (forall x y b, 0 <= x < 2 ^ wb w -> 0 <= y < 2 ^ wb w -> 0 <= f x y b < 2 ^ wb w) ->
  (forall a b m p, reg (rbits s) a -> reg (rbits s) b -> mrelk k w s p m ->
     op a b m = Ok (pack (wb w) (rbits s) (fun i => f (lane (wb w) i a) (lane (wb w) i b) (p i)))) ->
  computesVVM_k k w s (vec_impl3 op) f.
Proof.
  intros Hf Hop va. induction va as [|a va IH]; intros [|b vb] [|m vm] bs Ha Hb HM Hl1 Hl2; try discriminate.
  - cbn in HM. subst. exists []. repeat split; try constructor.
  - apply wfv_cons in Ha as [Hr Ha]. apply wfv_cons in Hb as [Hrb Hb].
    destruct HM as (p & bs' & Hm & -> & HM). cbn in Hl1, Hl2.
    destruct (IH vb vm bs' Ha Hb HM ltac:(lia) ltac:(lia)) as (vr & E & W & L & EL).
    eexists. cbn [vec_impl3]. rewrite (Hop a b m p), E by auto. cbn [bind]. split; [reflexivity|].
    split; [apply wfv_cons; split; auto|]. split; [cbn; lia|].
    rewrite !lanes_cons, zipw3_app, EL by (rewrite !elems_length, ?map_length, ?seq_length; reflexivity).
    f_equal. destruct (wok_spec _ _ (wok_lib w s)) as (Hw & HR & ER & En).
    unfold elems. rewrite zipw3_map. apply map_ext_in. intros i Hi. apply in_seq in Hi.
    rewrite lane_pack by (auto; lia). apply wrap_small, Hf; auto.
Qed.
Theorem liftVVM A w s (op : Z -> Z -> Z -> res Z) f :
  (forall x y b, 0 <= x < 2 ^ wb w -> 0 <= y < 2 ^ wb w -> 0 <= f x y b < 2 ^ wb w) ->
  (forall a b m p, reg (rbits s) a -> reg (rbits s) b -> mrel A w s p m ->
     op a b m = Ok (pack (wb w) (rbits s) (fun i => f (lane (wb w) i a) (lane (wb w) i b) (p i)))) ->
  computesVVM A w s (vec_impl3 op) f.
Proof. exact (liftVVM_k (mk_int A w s) w s op f). Qed.
Theorem liftU_k k w s (op : Z -> res Z) :
  (forall m p, mrelk k w s p m -> op m = Ok (tfv (wb w) (rbits s) p)) ->
  computesU_k k w s (vec_impl1 op).
Proof.
  intros Hop vm. induction vm as [|m vm IH]; intros bs HM.
  - cbn in HM. subst. exists []. repeat split; try constructor.
  - destruct HM as (p & bs' & Hm & -> & HM). destruct (IH bs' HM) as (vr & E & W & L & EL).
    eexists. cbn [vec_impl1]. rewrite (Hop m p), E by auto. cbn [bind]. split; [reflexivity|].
    split; [apply wfv_cons; split; auto|]. split; [cbn; lia|].
    rewrite lanes_cons, map_app, EL. f_equal.
    apply (elems_pack _ _ _ _ _ (fun i => p (Z.of_nat i))); auto.
    intros i Hi. rewrite Z2Nat.id by lia. rewrite wrap_tf by auto. reflexivity.
Qed.
Theorem liftU A w s (op : Z -> res Z) :
  (forall m p, mrel A w s p m -> op m = Ok (tfv (wb w) (rbits s) p)) ->
  computesU A w s (vec_impl1 op).
Proof. exact (liftU_k (mk_int A w s) w s op). Qed.
Theorem liftTM_k k w s (op : Z -> res Z) :
  (forall p, Rok (mrelk k w s p) (op (tfv (wb w) (rbits s) p))) ->
  computesTM_k k w s (vec_impl1 op).
Proof.
  intros Hop va. destruct (wok_spec _ _ (wok_lib w s)) as (Hw & HR & ER & En).
  induction va as [|a va IH]; intros bs Ha HL.
  - destruct bs; [|discriminate]. exists []. repeat split.
  - apply wfv_cons in Ha as [Hr Ha]. rewrite lanes_cons in HL.
    set (n := nl (wb w) (rbits s)) in *.
    assert (Hl : length (elems (wb w) n a) = n) by apply elems_length.
    rewrite <- (firstn_skipn n bs) in HL. rewrite map_app in HL.
    assert (HLn : (n <= length bs)%nat).
    { apply (f_equal (@length Z)) in HL. rewrite <- map_app, firstn_skipn, app_length, map_length in HL. lia. }
    assert (elems (wb w) n a = map (fun b : bool => if b then 2 ^ wb w - 1 else 0) (firstn n bs) /\
            lanes (wb w) s va = map (fun b : bool => if b then 2 ^ wb w - 1 else 0) (skipn n bs)) as [E1 E2].
    { apply app_eq_app in HL. destruct HL as (l & [[X Y]|[X Y]]).
      - assert (l = []) as -> by (destruct l; auto; apply (f_equal (@length Z)) in X;
          rewrite app_length, map_length, firstn_length in X; cbn in X; lia).
        rewrite app_nil_r in X. cbn in Y. auto.
      - assert (l = []) as -> by (destruct l; auto; apply (f_equal (@length Z)) in X;
          rewrite app_length, map_length, firstn_length in X; cbn in X; lia).
        rewrite app_nil_r in X. cbn in Y. auto. }
    destruct (IH _ Ha E2) as (vm & E & L & EM).
    set (p := fun i => nth (Z.to_nat i) bs false).
    assert (a = tfv (wb w) (rbits s) p) as Ea.
    { apply eq_tfv; auto. intros i Hi. 
      rewrite <- (Z2Nat.id i) at 1 by lia.
      rewrite <- (nth_elems (wb w) n a (Z.to_nat i) 0) by lia. rewrite E1.
      set (g := fun b : bool => if b then 2 ^ wb w - 1 else 0).
      transitivity (nth (Z.to_nat i) (map g (firstn n bs)) (g false)); [reflexivity|]. rewrite map_nth.
      unfold p. rewrite <- (firstn_skipn n bs) at 2. rewrite app_nth1 by (rewrite firstn_length; lia).
      reflexivity. }
    destruct (proj1 (Rok_ex _ _) (Hop p)) as (x & Ex & Hx).
    exists (x :: vm). cbn [vec_impl1]. rewrite Ea, Ex, E. cbn [bind]. split; [reflexivity|]. split; [cbn; lia|].
    exists p, (skipn n bs). split; [exact Hx|]. split; auto.
    rewrite <- (firstn_skipn n bs) at 1. f_equal. fold n.
    apply (nth_ext _ _ false (p 0)); [rewrite map_length, seq_length, firstn_length; lia|].
    intros i Hi. rewrite firstn_length in Hi.
    transitivity (p (Z.of_nat i)); [|change (p 0) with ((fun i => p (Z.of_nat i)) O); rewrite map_nth, seq_nth by lia; reflexivity].
    unfold p. rewrite Nat2Z.id. rewrite <- (firstn_skipn n bs) at 2. rewrite app_nth1 by (rewrite firstn_length; lia).
    reflexivity.
Qed.
Theorem liftTM A w s (op : Z -> res Z) :
  (forall p, Rok (mrel A w s p) (op (tfv (wb w) (rbits s) p))) ->
  computesTM A w s (vec_impl1 op).
Proof. exact (liftTM_k (mk_int A w s) w s op). Qed.

(** ---------- mask, mask operations ---------- *)
Lemma null_mm1_ok s w f a p g :
  (forall x, f (c_u8, Z.b2z x) = Ok (c_int, Z.b2z (g x))) ->
  a = pack 8 (8 * (rbits s / wb w)) (fun i => Z.b2z (p i)) ->
  nloop c_u8 (8 * (rbits s / wb w)) (fun i => f (el c_u8 a i))
  = Ok (pack 8 (8 * (rbits s / wb w)) (fun i => Z.b2z (g (p i)))).
Proof.
  intros Hf ->. apply (nloop_pack c_u8); [apply wok_mask|]. cbn [c_u8 snd]. rewrite nmask. intros i Hi.
  unfold el. cbn [snd c_u8]. rewrite !lane_mnull by auto.
  assert (forall b, cconv (false, 8) (Z.b2z b) = Z.b2z b) as E by (intros [|]; reflexivity).
  rewrite !E, Hf. eexists; split; [reflexivity|]. reflexivity.
Qed.
Lemma null_mm_ok s w f a b p q g :
  (forall x y, f (c_u8, Z.b2z x) (c_u8, Z.b2z y) = Ok (c_int, Z.b2z (g x y))) ->
  a = pack 8 (8 * (rbits s / wb w)) (fun i => Z.b2z (p i)) ->
  b = pack 8 (8 * (rbits s / wb w)) (fun i => Z.b2z (q i)) ->
  nloop c_u8 (8 * (rbits s / wb w)) (fun i => f (el c_u8 a i) (el c_u8 b i))
  = Ok (pack 8 (8 * (rbits s / wb w)) (fun i => Z.b2z (g (p i) (q i)))).
Proof.
  intros Hf -> ->. apply (nloop_pack c_u8); [apply wok_mask|]. cbn [c_u8 snd]. rewrite nmask. intros i Hi.
  unfold el. cbn [snd c_u8]. rewrite !lane_mnull by auto.
  assert (forall b, cconv (false, 8) (Z.b2z b) = Z.b2z b) as E by (intros [|]; reflexivity).
  rewrite !E, Hf. eexists; split; [reflexivity|]. reflexivity.
Qed.

Lemma kbits_le16 w s : (w = W32 \/ w = W64) -> rbits s / wb w <= 16.
Proof. destruct s; intros [-> | ->]; cbn; lia. Qed.
Lemma kbits_enough w s : rbits s / wb w <= kbits_of w s.
Proof. destruct s, w; cbn; lia. Qed.
Lemma rnb w s : 0 < rbits s / wb w.
Proof. destruct s, w; cbn; lia. Qed.
Lemma knull_128 A w s : mk_int A w s = KNull -> s = R128.
Proof. unfold mk_int. destruct s; auto; [destruct (use_avx512vl A)|]; discriminate. Qed.

Definition kop_ok (n : Z) (kop : Z -> Z -> Z) (g : bool -> bool -> bool) : Prop :=
  forall x y, 0 <= x -> 0 <= y -> 0 <= kop x y /\ (forall i, 0 <= i < n ->
        Z.testbit (kop x y) i = g (Z.testbit x i) (Z.testbit y i)).
Lemma kop_wrap n m f g : 0 <= m -> n <= m ->
  (forall x y i, 0 <= i -> Z.testbit (f x y) i = g (Z.testbit x i) (Z.testbit y i)) ->
  kop_ok n (fun x y => wrap m (f x y)) g.
Proof.
  intros Hm Hn Hf x y Hx Hy. split; [apply wrap_range; auto|]. intros i Hi.
  rewrite testbit_wrap, Hf by lia. destruct (Z.ltb_spec i m); [reflexivity|lia].
Qed.
Lemma kop_andnot n m : n <= m -> 0 <= m ->
  kop_ok n (fun a b => k_andnot m b a) (fun x y => x && negb y).
Proof.
  intros Hn Hm x y Hx Hy. unfold k_andnot. split; [rewrite Z.land_nonneg; auto|].
  intros i Hi. rewrite Z.land_spec, testbit_wrap, Z.lnot_spec by lia.
  destruct (Z.ltb_spec i m); [|lia]. apply andb_comm.
Qed.
Lemma kop_and n : kop_ok n k_and andb.
Proof. intros x y Hx Hy. split; [apply Z.land_nonneg; auto|]. intros. apply Z.land_spec. Qed.
Lemma kop_or n : kop_ok n k_or orb.
Proof. intros x y Hx Hy. split; [apply Z.lor_nonneg; auto|]. intros. apply Z.lor_spec. Qed.
Lemma kop_xor n : kop_ok n k_xor xorb.
Proof. intros x y Hx Hy. split; [apply Z.lxor_nonneg; tauto|]. intros. apply Z.lxor_spec. Qed.
Lemma kop_and16 n : n <= 16 -> kop_ok n mm512_kand andb.
Proof. intros. apply (kop_wrap n 16 Z.land); try lia. intros. apply Z.land_spec. Qed.
Lemma kop_or16 n : n <= 16 -> kop_ok n mm512_kor orb.
Proof. intros. apply (kop_wrap n 16 Z.lor); try lia. intros. apply Z.lor_spec. Qed.
Lemma kop_xor16 n : n <= 16 -> kop_ok n mm512_kxor xorb.
Proof. intros. apply (kop_wrap n 16 Z.lxor); try lia. intros. apply Z.lxor_spec. Qed.
Lemma kop_andn16 n : n <= 16 -> kop_ok n (fun a b => mm512_kandn b a) (fun x y => x && negb y).
Proof. intros. apply (kop_wrap n 16 Z.ldiff); try lia. intros. apply Z.ldiff_spec. Qed.

  Lemma rnot_tfv w s p : rnot (rbits s) (tfv (wb w) (rbits s) p) = tfv (wb w) (rbits s) (fun i => negb (p i)).
  Proof.
    apply eq_tfv; auto. intros i Hi. rewrite lane_rnot, lane_tfv by auto.
    destruct (p i); unfold tf; cbn [negb]; [apply Z.lxor_nilpotent|apply Z.lxor_0_l].
  Qed.

Section MM.
  Variables (A : arch) (w : ew) (s : rsz).
  Hypotheses (HV : valid_arch A = true) (HA : avail_int A (wb w) s = true).

  Lemma mm_ladder_ok nul kop vop g a b p q :
    kop_ok (rbits s / wb w) kop g ->
    (s = R128 -> mrel A w s p a -> mrel A w s q b -> mk_int A w s = KNull ->
       nul (128 / wb w) a b = Ok (pack 8 (8 * (128 / wb w)) (fun i => Z.b2z (g (p i) (q i))))) ->
    (vop w (tfv (wb w) (rbits s) p) (tfv (wb w) (rbits s) q) = Ok (tfv (wb w) (rbits s) (fun i => g (p i) (q i)))) ->
    mrel A w s p a -> mrel A w s q b ->
    Rok (mrel A w s (fun i => g (p i) (q i))) (mm_ladder A w s nul kop vop a b).
  Proof.
    intros Hk Hn Hv Ha Hb. unfold mm_ladder. pose proof (knull_128 A w s) as K1.
    pose proof Ha as Ha'. pose proof Hb as Hb'. unfold mrel in Ha, Hb.
    destruct (mk_int A w s) eqn:EK.
    - rewrite Hn; auto. unfold mrel. rewrite EK. cbn [Rok mask_rel]. rewrite K1 by auto. reflexivity.
    - rewrite (unmask_ok A w s a p), (unmask_ok A w s b q) by (auto; rewrite EK; auto). cbn [bind].
      unfold tfv in Hv. rewrite Hv. cbn [bind]. apply i_to_mask_ok.
    - unfold mrel. rewrite EK. cbn [Rok mask_rel]. destruct Ha as [Ha0 Ha], Hb as [Hb0 Hb].
      destruct (Hk a b Ha0 Hb0) as [H1 H2]. split; auto. intros i Hi. rewrite H2, Ha, Hb by auto. reflexivity.
  Qed.


  Lemma tfv_op2 (zop : Z -> Z -> Z) g p q :
    (forall i x y, 0 <= i -> lane (wb w) i (zop x y) = zop (lane (wb w) i x) (lane (wb w) i y)) ->
    (forall x y, reg (rbits s) x -> reg (rbits s) y -> reg (rbits s) (zop x y)) ->
    (forall x y, zop (tf (wb w) x) (tf (wb w) y) = tf (wb w) (g x y)) ->
    zop (tfv (wb w) (rbits s) p) (tfv (wb w) (rbits s) q) = tfv (wb w) (rbits s) (fun i => g (p i) (q i)).
  Proof.
    intros HL HR HG. apply eq_tfv; auto. intros i Hi. rewrite HL, !lane_tfv by (auto; lia). apply HG.
  Qed.

  Theorem i_bit_and_mm_ok a b p q : mrel A w s p a -> mrel A w s q b ->
    Rok (mrel A w s (fun i => p i && q i)) (i_bit_and_mm A w s a b).
  Proof.
    intros Ha Hb. unfold i_bit_and_mm. apply (mm_ladder_ok _ _ _ andb); auto.
    - pose proof (kbits_le16 w s). destruct w; first [apply kop_and|apply kop_and16; auto].
    - intros Es Ha' Hb' EK. unfold mrel in *. rewrite EK in *. rewrite Es in *. cbn [mask_rel] in *.
      apply (null_mm_ok R128 w c_and a b p q); auto. intros [|] [|]; reflexivity.
    - rewrite i_bit_and_ok by auto. f_equal. apply (tfv_op2 Z.land); auto.
      + intros; apply lane_land; auto.
      + intros [|] [|]; unfold tf; rewrite ?Z.land_diag, ?Z.land_0_r, ?Z.land_0_l; reflexivity.
  Qed.
  Theorem i_bit_or_mm_ok a b p q : mrel A w s p a -> mrel A w s q b ->
    Rok (mrel A w s (fun i => p i || q i)) (i_bit_or_mm A w s a b).
  Proof.
    intros Ha Hb. unfold i_bit_or_mm. apply (mm_ladder_ok _ _ _ orb); auto.
    - pose proof (kbits_le16 w s). destruct s, w; first [apply kop_or|apply kop_or16; auto].
    - intros Es Ha' Hb' EK. unfold mrel in *. rewrite EK in *. rewrite Es in *. cbn [mask_rel] in *.
      apply (null_mm_ok R128 w c_or a b p q); auto. intros [|] [|]; reflexivity.
    - rewrite i_bit_or_ok by auto. f_equal. apply (tfv_op2 Z.lor); auto.
      + intros; apply lane_lor; auto.
      + intros [|] [|]; unfold tf; rewrite ?Z.lor_diag, ?Z.lor_0_r, ?Z.lor_0_l; reflexivity.
  Qed.
  Theorem i_bit_xor_mm_ok a b p q : mrel A w s p a -> mrel A w s q b ->
    Rok (mrel A w s (fun i => xorb (p i) (q i))) (i_bit_xor_mm A w s a b).
  Proof.
    intros Ha Hb. unfold i_bit_xor_mm. apply (mm_ladder_ok _ _ _ xorb); auto.
    - pose proof (kbits_le16 w s). destruct s, w; first [apply kop_xor|apply kop_xor16; auto].
    - intros Es Ha' Hb' EK. unfold mrel in *. rewrite EK in *. rewrite Es in *. cbn [mask_rel] in *.
      apply (null_mm_ok R128 w c_xor a b p q); auto. intros [|] [|]; reflexivity.
    - rewrite i_bit_xor_ok by auto. f_equal. apply (tfv_op2 Z.lxor); auto.
      + intros; apply lane_lxor; auto.
      + intros [|] [|]; unfold tf; rewrite ?Z.lxor_nilpotent, ?Z.lxor_0_r, ?Z.lxor_0_l; reflexivity.
  Qed.
  Theorem i_bit_andnot_mm_ok a b p q : mrel A w s p a -> mrel A w s q b ->
    Rok (mrel A w s (fun i => p i && negb (q i))) (i_bit_andnot_mm A w s a b).
  Proof.
    intros Ha Hb. unfold i_bit_andnot_mm. apply (mm_ladder_ok _ _ _ (fun x y => x && negb y)); auto.
    - pose proof (kbits_le16 w s). pose proof (kbits_enough w s).
      destruct s, w; first [apply kop_andn16; auto; fail|apply kop_andnot; [assumption|cbn; lia]].
    - intros Es Ha' Hb' EK. unfold mrel in *. rewrite EK in *. rewrite Es in *. cbn [mask_rel] in *.
      apply (null_mm_ok R128 w (fun x y => let* z := c_xor y (c_lit 1) in c_and x z) a b p q (fun x y => x && negb y)); auto.
      intros [|] [|]; reflexivity.
    - rewrite i_bit_andnot_ok by auto. f_equal. apply (tfv_op2 Z.ldiff (fun x y => x && negb y)); auto.
      + intros; apply lane_ldiff; auto.
      + intros [|] [|]; unfold tf; cbn [negb andb]; rewrite ?Z.ldiff_diag, ?Z.ldiff_0_r, ?Z.ldiff_0_l; reflexivity.
  Qed.
  Theorem i_bit_not_m_ok a p : mrel A w s p a ->
    Rok (mrel A w s (fun i => negb (p i))) (i_bit_not_m A w s a).
  Proof.
    intros Ha. unfold i_bit_not_m. pose proof (kbits_enough w s) as Hen. pose proof Ha as Ha'. unfold mrel in Ha.
    assert (Hk : forall n, rbits s / wb w <= n -> mk_int A w s = KBits ->
      mrel A w s (fun i => negb (p i)) (wrap n (Z.lnot a))).
    { intros n Hn EK. unfold mrel. rewrite EK in *. destruct Ha as [H0 Hb]. split.
      - apply wrap_range. pose proof (rnb w s). lia.
      - intros i Hi. rewrite testbit_wrap, Z.lnot_spec, Hb by lia. destruct (Z.ltb_spec i n); [reflexivity|lia]. }
    assert (Hu : (let* v := unmask A w s a in let* r := i_bit_not A w s v in i_to_mask A w s r) = i_to_mask A w s (tfv (wb w) (rbits s) (fun i => negb (p i)))).
    { rewrite (unmask_ok A w s a p) by auto. cbn [bind]. rewrite i_bit_not_ok by auto. cbn [bind].
      change (pack (wb w) (rbits s) (fun i => tf (wb w) (p i))) with (tfv (wb w) (rbits s) p).
      rewrite rnot_tfv. reflexivity. }
    destruct s eqn:Es.
    - destruct (mk_int A w R128) eqn:EK.
      + cbn [mask_rel] in Ha. unfold null_bit_not_mm. change 128 with (rbits R128).
        rewrite (null_mm1_ok R128 w (fun x => c_xor x (c_lit 1)) a p negb); auto.
        * unfold mrel. cbn [Rok]. rewrite EK. reflexivity.
        * intros [|]; reflexivity.
      + rewrite Hu. apply i_to_mask_ok.
      + rewrite Hu. apply i_to_mask_ok.
    - destruct (mk_int A w R256) eqn:EK.
      + unfold mk_int in EK. destruct (use_avx512vl A); discriminate.
      + cbn [mask_rel] in Ha. subst a. rewrite i_bit_not_ok by auto. cbn [Rok]. unfold mrel. rewrite EK.
        cbn [mask_rel]. apply rnot_tfv.
      + apply Hk; auto.
    - destruct w; apply Hk; auto; cbn; lia.
  Qed.
  (** vector, mask *)
  Theorem i_bit_and_vm_ok a m p : reg (rbits s) a -> mrel A w s p m ->
    i_bit_and_vm A w s a m = Ok (pack (wb w) (rbits s) (fun i => if p i then lane (wb w) i a else 0)).
  Proof.
    intros Hr Hm. unfold i_bit_and_vm. pose proof (knull_128 A w s) as K1. unfold mrel in Hm.
    destruct (mk_int A w s) eqn:EK.
    - cbn [mask_rel] in Hm. rewrite K1 in * by auto. unfold null_bit_and_vm. cbn [rbits] in *.
      apply (nloop_pack (ut w)); [apply (wok_lib w R128)|]. change (snd (ut w)) with (wb w). intros i Hi. subst m.
      rewrite (c_bool_mnull w R128) by auto. eexists; split; [reflexivity|].
      destruct (p i); cbn [snd el c_lit]; [|reflexivity]. change (snd (ut w)) with (wb w).
      rewrite u_cconv by auto. reflexivity.
    - rewrite (unmask_ok A w s m p) by (auto; rewrite EK; auto). cbn [bind].
      rewrite i_bit_and_ok by auto. f_equal. apply (reg_lanes (wb w) (rbits s)); auto.
      intros i Hi. rewrite lane_land, !lane_pack, wrap_tf by (auto; lia).
      destruct (p i); unfold tf; [|rewrite wrap_0; apply Z.land_0_r]. rewrite wrap_lane.
      unfold ones. rewrite Z.sub_1_r, <- Z.ones_equiv, Z.land_ones by auto. apply Z.mod_small, lane_range; auto.
    - destruct Hm as [H0 Hb]. f_equal. unfold mm_maskz_mov. apply pack_ext; auto. intros i Hi. rewrite Hb by auto. reflexivity.
  Qed.
  Theorem i_bit_andnot_vm_ok a m p : reg (rbits s) a -> mrel A w s p m ->
    i_bit_andnot_vm A w s a m = Ok (pack (wb w) (rbits s) (fun i => if p i then 0 else lane (wb w) i a)).
  Proof.
    intros Hr Hm. unfold i_bit_andnot_vm. pose proof (knull_128 A w s) as K1. unfold mrel in Hm.
    destruct (mk_int A w s) eqn:EK.
    - cbn [mask_rel] in Hm. rewrite K1 in * by auto. unfold null_bit_andnot_vm. cbn [rbits] in *.
      apply (nloop_pack (ut w)); [apply (wok_lib w R128)|]. change (snd (ut w)) with (wb w). intros i Hi. subst m.
      rewrite (c_bool_mnull w R128) by auto. eexists; split; [reflexivity|].
      destruct (p i); cbn [snd el c_lit]; [reflexivity|]. change (snd (ut w)) with (wb w).
      rewrite u_cconv by auto. reflexivity.
    - rewrite (unmask_ok A w s m p) by (auto; rewrite EK; auto). cbn [bind].
      rewrite i_bit_andnot_ok by auto. f_equal. apply (reg_lanes (wb w) (rbits s)); auto.
      intros i Hi. rewrite lane_ldiff, !lane_pack, wrap_tf by (auto; lia).
      destruct (p i); unfold tf; [|rewrite wrap_lane; apply Z.ldiff_0_r]. rewrite wrap_0.
      unfold ones. rewrite Z.sub_1_r, <- Z.ones_equiv, Z.ldiff_ones_r by auto.
      rewrite Z.shiftr_div_pow2, Z.div_small by auto. apply Z.shiftl_0_l.
    - destruct Hm as [H0 Hb].
      assert (forall n, rbits s / wb w <= n -> mm_maskz_mov (wb w) (rbits s) (wrap n (Z.lnot m)) a =
         pack (wb w) (rbits s) (fun i => if p i then 0 else lane (wb w) i a)) as HK.
      { intros n Hn. unfold mm_maskz_mov. apply pack_ext; auto. intros i Hi. pose proof (rnb w s).
        rewrite testbit_wrap, Z.lnot_spec, Hb by lia. destruct (Z.ltb_spec i n); [|lia]. destruct (p i); reflexivity. }
      pose proof (kbits_enough w s).
      destruct s, w; f_equal; apply HK; first [assumption|cbn; lia].
  Qed.
End MM.
