(** Loads and stores of one register. *)
From Verif Require Export Model.LoadStore Proof.BlendP Proof.FloatsP2.

(** the result of a store: the selected lanes of [a] are written, nothing else *)
Definition stored (w R : Z) (sel : Z -> bool) (a p : Z) (m : mem) (r : res mem) : Prop :=
  exists m', r = Ok m' /\ forall q, m' q = put (R / 8) p (sel_bytes w sel a) m q.
Definition all (i : Z) : bool := true.

Lemma put_ext n p f g m q : (forall i, 0 <= i < n -> f i = g i) -> put n p f m q = put n p g m q.
Proof.
  intros H. unfold put. destruct ((p <=? q) && (q <? p + n)) eqn:E; [|reflexivity].
  apply andb_true_iff in E as [E1 E2]. apply Z.leb_le in E1. apply Z.ltb_lt in E2. rewrite H by lia. reflexivity.
Qed.
Lemma put_in n p f m q : p <= q < p + n -> put n p f m q = match f (q - p) with Some b => Some b | None => m q end.
Proof.
  intros H. unfold put. replace ((p <=? q) && (q <? p + n)) with true; auto.
  symmetry. apply andb_true_iff. split; [apply Z.leb_le|apply Z.ltb_lt]; lia.
Qed.
Lemma put_out n p f m q : q < p \/ p + n <= q -> put n p f m q = m q.
Proof.
  intros H. unfold put. replace ((p <=? q) && (q <? p + n)) with false; auto.
  symmetry. apply andb_false_iff. rewrite Z.leb_gt, Z.ltb_ge. lia.
Qed.
Lemma in_dec_Z p n q : (p <= q < p + n) \/ (q < p \/ p + n <= q).
Proof. lia. Qed.

Lemma stored_ext w R sel sel' a p m r : wok w R = true -> wok 8 w = true ->
  (forall i, 0 <= i < R / w -> sel i = sel' i) -> stored w R sel a p m r -> stored w R sel' a p m r.
Proof.
  intros H1 H3 H (m' & E & Hm). exists m'. split; auto. intros q. rewrite Hm. apply put_ext.
  intros i Hi. unfold sel_bytes. destruct (wok_div _ _ H1 H3) as (Hk & Rd & _).
  rewrite H; auto. split; [apply Z.div_pos; lia|apply Z.div_lt_upper_bound; nia].
Qed.
(** selecting whole lanes, seen as selecting bytes *)
Lemma stored_bytes w R sel a p m r : wok w R = true -> wok 8 w = true ->
  stored 8 R (fun j => sel (j / (w / 8))) a p m r -> stored w R sel a p m r.
Proof.
  intros H1 H3 (m' & E & Hm). exists m'. split; auto. intros q. rewrite Hm. apply put_ext.
  intros i Hi. unfold sel_bytes. change (8 / 8) with 1. rewrite Z.div_1_r. reflexivity.
Qed.
Lemma stored_full w R a p m : accessible m p (R / 8) -> stored w R all a p m (wr_reg R p a m).
Proof. intros Ha. eexists. split; [apply wr_reg_ok; auto|]. intros q. reflexivity. Qed.
Lemma stored_none w R (sel : Z -> bool) a p m : accessible m p (R / 8) ->
  (forall i, sel i = false) -> stored w R sel a p m (Ok m).
Proof.
  intros Ha H. exists m. split; auto. intros q. unfold put, sel_bytes. rewrite H. destruct (_ && _); reflexivity.
Qed.
(** storing a register that already holds the old bytes where nothing is selected *)
Lemma stored_blend w R (sel : Z -> bool) a r p m : wok w R = true -> wok 8 w = true -> accessible m p (R / 8) ->
  (forall j, 0 <= j < R / 8 -> lane 8 j r = if sel (j / (w / 8)) then lane 8 j a else byte_at m (p + j)) ->
  forall t, stored 8 R all r p m t -> stored w R sel a p m t.
Proof.
  intros H1 H3 Ha Hl t (m' & E & Hm). exists m'. split; auto. intros q. rewrite Hm.
  destruct (in_dec_Z p (R / 8) q) as [Hq|Hq]; [|rewrite !put_out; auto].
  rewrite !put_in by auto. unfold sel_bytes. cbn [all]. rewrite Hl by lia.
  destruct (sel _); [reflexivity|]. replace (p + (q - p)) with q by lia.
  symmetry. eapply acc_byte; eauto.
Qed.
(** one after the other *)
Lemma stored_seq w R sel1 sel2 a p m r (k : mem -> res mem) : wok w R = true ->
  stored w R sel1 a p m r -> (forall m1, (forall q, m1 q = put (R / 8) p (sel_bytes w sel1 a) m q) -> stored w R sel2 a p m1 (k m1)) ->
  stored w R (fun i => sel2 i || sel1 i) a p m (let* m1 := r in k m1).
Proof.
  intros H1 (m1 & E & Hm) H2. destruct (H2 m1 Hm) as (m2 & E2 & Hm2). exists m2. rewrite E. cbn [bind]. split; auto.
  intros q. rewrite Hm2. destruct (in_dec_Z p (R / 8) q) as [Hq|Hq].
  - rewrite !put_in, Hm, put_in by auto. unfold sel_bytes. destruct (sel2 _), (sel1 _); reflexivity.
  - rewrite !put_out, Hm, put_out by auto. reflexivity.
Qed.
Lemma div_iff i c j : 0 < c -> (j / c = i <-> i * c <= j < (i + 1) * c).
Proof.
  intros Hc. split.
  - intros <-. pose proof (Z.div_mod j c ltac:(lia)). pose proof (Z.mod_pos_bound j c Hc). nia.
  - intros H. symmetry. apply (Z.div_unique j c i (j - i * c)); [left; nia|lia].
Qed.
Lemma aligned_mul a b p : 0 < a -> 0 < b -> p mod (a * b) = 0 -> aligned a p = true.
Proof.
  intros Ha Hb H. apply Z.eqb_eq. apply Z.mod_divide; [lia|]. apply Z.mod_divide in H; [|nia].
  destruct H as [k E]. exists (k * b). nia.
Qed.
(** an element store *)
Lemma stored_el w R a p i m : wok w R = true -> wok 8 w = true -> accessible m p (R / 8) -> aligned (w / 8) p = true ->
  0 <= i < R / w -> stored w R (fun j => j =? i) a p m (st_el w (p + i * (w / 8)) (lane w i a) m).
Proof.
  intros H1 H3 Ha Hal Hi. destruct (wok_div _ _ H1 H3) as (Hk & Rd & E3).
  unfold st_el. replace (aligned (w / 8) (p + i * (w / 8))) with true.
  2:{ symmetry. apply Z.eqb_eq. rewrite Z.mod_add by lia. apply Z.eqb_eq, Hal. }
  cbn [require]. eexists. split.
  - apply wr_reg_ok. apply (acc_sub _ _ _ _ _ Ha); nia.
  - intros q. destruct (in_dec_Z (p + i * (w / 8)) (w / 8) q) as [Hq|Hq].
    + rewrite !put_in by nia. unfold sel_bytes. cbn [all].
      replace ((q - p) / (w / 8)) with i by (symmetry; apply div_iff; nia). rewrite Z.eqb_refl.
      f_equal. rewrite E3 at 2. rewrite lane_lane by lia. f_equal. lia.
    + rewrite put_out by auto. destruct (in_dec_Z p (R / 8) q) as [Hp|Hp]; [|rewrite put_out by auto; reflexivity].
      rewrite put_in by auto. unfold sel_bytes. destruct (_ =? i) eqn:E; [|reflexivity].
      apply Z.eqb_eq, div_iff in E; [|lia]. lia.
Qed.
Lemma null_st_ok w p a (k : nat) : forall i m, wok w 128 = true -> wok 8 w = true -> accessible m p 16 -> aligned (w / 8) p = true ->
  0 <= i -> i + Z.of_nat k <= 128 / w ->
  stored w 128 (fun j => (i <=? j) && (j <? i + Z.of_nat k)) a p m (null_st w p a i k m).
Proof.
  induction k; intros i m H1 H3 Ha Hal Hi Hk.
  - cbn [null_st]. apply stored_none; auto. intros j. apply andb_false_iff. rewrite Z.leb_gt, Z.ltb_ge. lia.
  - cbn [null_st].
    apply (stored_ext w 128 (fun j => ((i + 1 <=? j) && (j <? i + 1 + Z.of_nat k)) || (j =? i))); auto.
    + intros j Hj. destruct (Z.eqb_spec j i); [|destruct (Z.leb_spec (i + 1) j), (Z.leb_spec i j), (Z.ltb_spec j (i + 1 + Z.of_nat k)), (Z.ltb_spec j (i + Z.of_nat (S k))); cbn; lia].
      rewrite orb_true_r. symmetry. apply andb_true_iff. split; [apply Z.leb_le|apply Z.ltb_lt]; lia.
    + apply (stored_seq w 128 (fun j => j =? i)); auto.
      * apply stored_el; auto. lia.
      * intros m1 Hm1. apply IHk; auto; try lia. apply (acc_ext (put 16 p (sel_bytes w (fun j => j =? i) a) m)); auto. apply acc_put. auto.
Qed.

Lemma wok128 e : wok (eb e) 128 = true. Proof. destruct e; reflexivity. Qed.
Lemma wok8e e : wok 8 (eb e) = true. Proof. destruct e; reflexivity. Qed.
Lemma wokR e s : wok (eb e) (rbits s) = true. Proof. destruct e, s; reflexivity. Qed.
Lemma wok8R s : wok 8 (rbits s) = true. Proof. destruct s; reflexivity. Qed.

Lemma null_load_ok w p m : wok w 128 = true -> wok 8 w = true -> aligned (w / 8) p = true -> accessible m p 16 ->
  null_load w p m = Ok (view 128 p m).
Proof.
  intros H1 H3 Hal Ha. destruct (wok_spec _ _ H1) as (Hw & HR & E & En). destruct (wok_div _ _ H1 H3) as (Hk & Rd & E3).
  unfold null_load. rewrite (mkM_ok w (nl w 128) _ (fun i => lane w i (view 128 p m))).
  - f_equal. apply (pack_lanes w 128); auto. apply view_reg. reflexivity.
  - intros i Hi. unfold ld_el. replace (aligned (w / 8) (p + i * (w / 8))) with true.
    2:{ symmetry. apply Z.eqb_eq. rewrite Z.mod_add by lia. apply Z.eqb_eq, Hal. }
    cbn [require]. assert (Hs : accessible m (p + i * (w / 8)) (w / 8)) by (apply (acc_sub _ _ _ _ _ Ha); change 16 with (128 / 8); nia).
    rewrite rd_ok by (auto; lia). f_equal.
    rewrite lane_view by (auto; lia). rewrite number_mk by (rewrite Z2Nat.id by lia; auto). reflexivity.
Qed.
Lemma null_store_ok w p a m : wok w 128 = true -> wok 8 w = true -> aligned (w / 8) p = true -> accessible m p 16 ->
  stored w 128 all a p m (null_store w p a m).
Proof.
  intros H1 H3 Hal Ha. destruct (wok_spec _ _ H1) as (Hw & HR & E & En). unfold null_store.
  eapply stored_ext; [auto|auto| |apply null_st_ok; auto; lia]. intros i Hi. cbn [all].
  apply andb_true_iff. split; [apply Z.leb_le|apply Z.ltb_lt]; lia.
Qed.
Lemma null_store_first_ok w p a n m : wok w 128 = true -> wok 8 w = true -> aligned (w / 8) p = true -> accessible m p 16 ->
  0 <= n -> stored w 128 (fun i => i <? n) a p m (null_store_first w p a n m).
Proof.
  intros H1 H3 Hal Ha Hn. destruct (wok_spec _ _ H1) as (Hw & HR & E & En). unfold null_store_first.
  eapply stored_ext; [auto|auto| |apply null_st_ok; auto; lia]. intros i Hi. cbn beta. rewrite Z2Nat.id by lia.
  destruct (Z.leb_spec 0 i), (Z.ltb_spec i n), (Z.ltb_spec i (0 + Z.min (128 / w) n)); cbn; lia.
Qed.
Lemma null_store_last_ok w p a n m : wok w 128 = true -> wok 8 w = true -> aligned (w / 8) p = true -> accessible m p 16 ->
  0 <= n <= 128 / w -> stored w 128 (fun i => 128 / w - n <=? i) a p m (null_store_last w p a n m).
Proof.
  intros H1 H3 Hal Ha Hn. destruct (wok_spec _ _ H1) as (Hw & HR & E & En). unfold null_store_last.
  eapply stored_ext; [auto|auto| |apply null_st_ok; auto; lia]. intros i Hi. cbn beta. rewrite Z2Nat.id by lia.
  destruct (Z.leb_spec (128 / w - n) i), (Z.ltb_spec i (128 / w - n + n)); cbn; lia.
Qed.
Lemma null_store_masked_ok w p a k sel m : wok w 128 = true -> wok 8 w = true -> aligned (w / 8) p = true -> accessible m p 16 ->
  (forall i, 0 <= i < 128 / w -> (lane 8 i k =? 0) = negb (sel i)) ->
  stored w 128 sel a p m (null_store_masked w p a k m).
Proof.
  intros H1 H3 Hal Ha Hk. destruct (wok_spec _ _ H1) as (Hw & HR & E & En). unfold null_store_masked.
  assert (G : forall n i m, accessible m p 16 -> 0 <= i -> i + Z.of_nat n <= 128 / w ->
     stored w 128 (fun j => (i <=? j) && (j <? i + Z.of_nat n) && sel j) a p m (null_st_masked w p a k i n m)).
  { induction n; intros i m0 Ha0 Hi Hn; cbn [null_st_masked].
    - apply stored_none; auto. intros j. apply andb_false_iff. left. apply andb_false_iff. rewrite Z.leb_gt, Z.ltb_ge. lia.
    - apply (stored_ext w 128 (fun j => ((i + 1 <=? j) && (j <? i + 1 + Z.of_nat n) && sel j) || ((j =? i) && sel j))); auto.
      + intros j Hj. destruct (sel j); rewrite ?andb_false_r, ?andb_true_r; [|reflexivity].
        destruct (Z.eqb_spec j i), (Z.leb_spec (i + 1) j), (Z.leb_spec i j), (Z.ltb_spec j (i + 1 + Z.of_nat n)), (Z.ltb_spec j (i + Z.of_nat (S n))); cbn; lia.
      + apply (stored_seq w 128 (fun j => (j =? i) && sel j)); auto.
        * rewrite Hk by lia. destruct (sel i) eqn:Es; cbn [negb].
          -- apply (stored_ext w 128 (fun j => j =? i)); auto.
             ++ intros j Hj. destruct (Z.eqb_spec j i); [subst; rewrite Es|]; reflexivity.
             ++ apply stored_el; auto. lia.
          -- apply stored_none; auto. intros j. destruct (Z.eqb_spec j i); [subst; rewrite Es|]; reflexivity.
        * intros m1 Hm1. apply IHn; auto; try lia.
          apply (acc_ext (put 16 p (sel_bytes w (fun j => (j =? i) && sel j) a) m0)); auto. apply acc_put. auto. }
  eapply stored_ext; [auto|auto| |apply G; auto; lia]. intros i Hi. cbn beta.
  destruct (Z.leb_spec 0 i), (Z.ltb_spec i (0 + Z.of_nat (nl w 128))); cbn; try lia; reflexivity.
Qed.

(** the addresses *)
Lemma aligned_R p s : p mod (rbits s / 8) = 0 -> aligned (rbits s / 8) p = true.
Proof. intros H. apply Z.eqb_eq, H. Qed.
Lemma al16 p : p mod 16 = 0 -> aligned 16 p = true.
Proof. intros H. apply Z.eqb_eq, H. Qed.
Lemma aligned_16 p w : wok w 128 = true -> wok 8 w = true -> p mod 16 = 0 -> aligned (w / 8) p = true.
Proof.
  intros H1 H3 H. destruct (wok_spec _ _ H1) as (Hw & HR & E & En). destruct (wok_div _ _ H1 H3) as (Hk & Rd & E3).
  apply (aligned_mul _ (128 / w)); [lia|nia|]. rewrite Z.mul_comm, <- Rd. exact H.
Qed.
Lemma blk_0 p : p mod 16 = 0 -> blk (p + 0) = p.
Proof. intros H. unfold blk. rewrite Z.add_0_r. lia. Qed.

Section R.
  Variables (A : arch).
  Hypothesis HV : valid_arch A = true.

  Ltac done_ := first [reflexivity | assumption].
  Lemma i_load_ok e s p m : avail_et A e s = true -> p mod (rbits s / 8) = 0 -> accessible m p (rbits s / 8) ->
    i_load A e s p m = Ok (view (rbits s) p m).
  Proof.
    intros HA Hp Ha.
    destruct s.
    - cbn [rbits] in *. change (128 / 8) with 16 in *.
      assert (E1 : mm_load 128 p m = Ok (view 128 p m)).
      { unfold mm_load. change (128 / 8) with 16. rewrite (al16 p Hp). apply rd_ok; [easy|exact Ha]. }
      assert (E2 : forall w, wok w 128 = true -> wok 8 w = true -> vld1q_mem w p m = Ok (view 128 p m)).
      { intros w H1 H3. unfold vld1q_mem. rewrite aligned_16 by auto. apply rd_ok; [easy|exact Ha]. }
      assert (E3 : vec_ld 0 p m = Ok (view 128 p m)).
      { unfold vec_ld. rewrite blk_0 by auto. apply rd_ok; [easy|exact Ha]. }
      assert (E4 : msa_ld p m = Ok (view 128 p m)) by (apply rd_ok; [easy|exact Ha]).
      assert (E5 : forall w, wok w 128 = true -> wok 8 w = true -> null_load w p m = Ok (view 128 p m)).
      { intros w H1 H3. apply null_load_ok; auto. apply aligned_16; auto. }
      assert (E6 : i_load8 A p m = Ok (view 128 p m)).
      { unfold i_load8, assume_aligned. rewrite (al16 p Hp), E1, E3, E4, E2, E5 by reflexivity. cbn [require]. lad HV HA reflexivity. }
      unfold i_load, assume_aligned. rewrite (al16 p Hp), E6, E1, E3, E4. cbn [require].
      assert (E5' : forall X, null_load (eb X) p m = Ok (view 128 p m)) by (intros; apply E5; [apply wok128|apply wok8e]).
      destruct e; cbn [eb is_dbl]; unfold fl_ladder; rewrite ?E2, ?E5 by reflexivity; try reflexivity;
        unfold scalar64, use_neon_no_flt_sp, use_neon64, use_neon32; lad HV HA reflexivity.
    - unfold i_load, if_wide. rewrite HA. unfold assume_aligned. rewrite (aligned_R p R256 Hp). cbn [require].
      unfold mm_load. rewrite (aligned_R p R256 Hp). apply rd_ok; [easy|exact Ha].
    - unfold i_load, if_wide. rewrite HA. unfold assume_aligned. rewrite (aligned_R p R512 Hp). cbn [require].
      unfold mm_load. rewrite (aligned_R p R512 Hp). apply rd_ok; [easy|exact Ha].
  Qed.

  Ltac lads HV HA leaf :=
    fam HV; repeat split_if;
    lazymatch goal with
    | |- stored _ _ _ _ _ _ UB => vimp HV
    | |- stored _ _ _ _ _ _ NotImpl => first [ cbn in HA; fcontra | vimp HV ]
    | |- _ => first [ leaf | vimp HV ]
    end.
  Section S128.
    Variables (w p a : Z) (m : mem).
    Hypotheses (H1 : wok w 128 = true) (H3 : wok 8 w = true) (Ha : accessible m p 16).
    Lemma st_full : stored w 128 all a p m (wr_reg 128 p a m).
    Proof. apply stored_full. exact Ha. Qed.
    Lemma st_all w' r : stored w' 128 all a p m r -> stored w 128 all a p m r.
    Proof. intros (m' & E & Hm). exists m'. split; auto. Qed.
    Lemma vst1q_ok w' : wok w' 128 = true -> wok 8 w' = true -> aligned (w' / 8) p = true -> stored w 128 all a p m (vst1q_mem w' p a m).
    Proof. intros G1 G3 Hp. unfold vst1q_mem. rewrite Hp. apply st_full. Qed.
    Lemma nullst_ok w' : wok w' 128 = true -> wok 8 w' = true -> aligned (w' / 8) p = true -> stored w 128 all a p m (null_store w' p a m).
    Proof. intros G1 G3 Hp. apply (st_all w'). apply null_store_ok; auto. Qed.
    Hypothesis Hp : p mod 16 = 0.
    Lemma mmst_ok : stored w 128 all a p m (mm_store 128 p a m).
    Proof. unfold mm_store. change (128 / 8) with 16. rewrite (al16 p Hp). apply st_full. Qed.
    Lemma vecst_ok : stored w 128 all a p m (vec_st a 0 p m).
    Proof. unfold vec_st. rewrite blk_0 by auto. apply st_full. Qed.
    Lemma i_store8_ok : stored w 128 all a p m (i_store8 A p a m).
    Proof.
      pose proof mmst_ok as E1. pose proof vecst_ok as E2. pose proof st_full as E3.
      pose proof (vst1q_ok 64 eq_refl eq_refl (aligned_16 p 64 eq_refl eq_refl Hp)) as E4.
      pose proof (nullst_ok 8 eq_refl eq_refl (aligned_16 p 8 eq_refl eq_refl Hp)) as E5.
      unfold i_store8, assume_aligned. rewrite (al16 p Hp). cbn [require]. unfold msa_st. lads HV HV assumption.
    Qed.
  End S128.
  Lemma i_store_ok e s p a m : avail_et A e s = true -> p mod (rbits s / 8) = 0 -> accessible m p (rbits s / 8) ->
    stored (eb e) (rbits s) all a p m (i_store A e s p a m).
  Proof.
    intros HA Hp Ha. destruct s.
    - cbn [rbits] in *. change (128 / 8) with 16 in *.
      pose proof (mmst_ok (eb e) p a m Ha Hp) as E1. pose proof (vecst_ok (eb e) p a m Ha Hp) as E2.
      pose proof (st_full (eb e) p a m Ha) as E3. pose proof (i_store8_ok (eb e) p a m Ha Hp) as E6.
      pose proof (vst1q_ok (eb e) p a m Ha (eb e) (wok128 e) (wok8e e) (aligned_16 p _ (wok128 e) (wok8e e) Hp)) as E4.
      pose proof (nullst_ok (eb e) p a m Ha (eb e) (wok128 e) (wok8e e) (aligned_16 p _ (wok128 e) (wok8e e) Hp)) as E5.
      unfold i_store, assume_aligned. rewrite (al16 p Hp). cbn [require].
      unfold fl_ladder, scalar64, use_neon_no_flt_sp, use_neon64, use_neon32, msa_st.
      destruct e; cbn [eb is_dbl] in *; try assumption; lads HV HV assumption.
    - unfold i_store, if_wide. rewrite HA. unfold assume_aligned. rewrite (aligned_R p R256 Hp). cbn [require].
      unfold mm_store. rewrite (aligned_R p R256 Hp). apply stored_full. exact Ha.
    - unfold i_store, if_wide. rewrite HA. unfold assume_aligned. rewrite (aligned_R p R512 Hp). cbn [require].
      unfold mm_store. rewrite (aligned_R p R512 Hp). apply stored_full. exact Ha.
  Qed.
  Lemma i_stream_ok e s p a m : avail_et A e s = true -> p mod (rbits s / 8) = 0 -> accessible m p (rbits s / 8) ->
    stored (eb e) (rbits s) all a p m (i_stream A e s p a m).
  Proof.
    intros HA Hp Ha. destruct s.
    - cbn [rbits] in *. change (128 / 8) with 16 in *.
      pose proof (mmst_ok (eb e) p a m Ha Hp) as E1. pose proof (vecst_ok (eb e) p a m Ha Hp) as E2.
      assert (E6 : forall e', stored (eb e) 128 all a p m (i_store A e' R128 p a m)).
      { intros e'. apply (st_all (eb e) p a m (eb e')). apply (i_store_ok e' R128); auto. destruct e'; reflexivity. }
      pose proof (nullst_ok (eb e) p a m Ha (eb e) (wok128 e) (wok8e e) (aligned_16 p _ (wok128 e) (wok8e e) Hp)) as E5.
      pose proof (nullst_ok (eb e) p a m Ha 8 eq_refl eq_refl (aligned_16 p 8 eq_refl eq_refl Hp)) as E7.
      unfold i_stream, i_stream8, assume_aligned. rewrite (al16 p Hp). cbn [require].
      unfold use_neon64. destruct e; cbn [eb] in *; lads HV HV ltac:(first [assumption | apply E6]).
    - unfold i_stream, if_wide. rewrite HA. unfold assume_aligned. rewrite (aligned_R p R256 Hp). cbn [require].
      unfold mm_store. rewrite (aligned_R p R256 Hp). apply stored_full. exact Ha.
    - unfold i_stream, if_wide. rewrite HA. unfold assume_aligned. rewrite (aligned_R p R512 Hp). cbn [require].
      unfold mm_store. rewrite (aligned_R p R512 Hp). apply stored_full. exact Ha.
  Qed.

  (** unaligned *)
  Definition vmx (e : et) : bool :=
    use_altivec A && negb (use_vsx206 A) && match e with I64 | F64 => false | _ => true end.
  Lemma lane_perm a b f i : (forall i, 0 <= i < 16 -> 0 <= f i < 32) -> 0 <= i < 16 ->
    lane 8 i (vec_perm a b (pack 8 128 f)) = if f i <? 16 then lane 8 (f i) a else lane 8 (f i - 16) b.
  Proof.
    intros Hf Hi. unfold vec_perm. rewrite lane_v1 by (auto; reflexivity). cbn zeta.
    rewrite lane_pack by (auto; reflexivity). rewrite (wrap_small 8 (f i)) by (change (2 ^ 8) with 256; specialize (Hf i Hi); lia).
    rewrite Z.mod_small by auto. rewrite wrap_if, !wrap_lane. reflexivity.
  Qed.
  Lemma mod16 p : 0 <= p mod 16 < 16.
  Proof. apply Z.mod_pos_bound. lia. Qed.
  Lemma blk_16 p : blk (p + 16) = blk p + 16.
  Proof. unfold blk. replace (p + 16) with (p + 1 * 16) by lia. rewrite Z.mod_add by lia. lia. Qed.
  Lemma blk_15 p : blk (p + 15) = if p mod 16 =? 0 then blk p else blk p + 16.
  Proof.
    unfold blk. pose proof (mod16 p). destruct (Z.eqb_spec (p mod 16) 0) as [E|E].
    - rewrite Zplus_mod, E. change ((0 + 15 mod 16) mod 16) with 15. lia.
    - replace (p + 15) with (p mod 16 - 1 + (p / 16 + 1) * 16) by (pose proof (Z.div_mod p 16 ltac:(lia)); lia).
      rewrite Z.mod_add by lia. rewrite (Z.mod_small (p mod 16 - 1)) by lia. pose proof (Z.div_mod p 16 ltac:(lia)). lia.
  Qed.
  Lemma vmx_load p m : accessible m (blk p) 32 ->
    (let* l1 := vec_ld 0 p m in let* l2 := vec_ld 16 p m in Ok (vec_perm l1 l2 (vec_lvsl p))) = Ok (view 128 p m).
  Proof.
    intros Ha. unfold vec_ld. rewrite Z.add_0_r, blk_16.
    assert (A1 : accessible m (blk p) 16) by (apply (acc_sub _ _ _ _ _ Ha); lia).
    assert (A2 : accessible m (blk p + 16) 16) by (apply (acc_sub _ _ _ _ _ Ha); lia).
    rewrite !rd_ok by (first [easy|assumption]). cbn [bind]. f_equal.
    assert (Hm := mod16 p).
    apply (reg_lanes 8 128); [reflexivity|apply v1_reg; reflexivity|apply view_reg; reflexivity|].
    intros i Hi. unfold vec_lvsl. rewrite lane_perm by (auto; intros; lia).
    change (128 / 8) with 16 in Hi. rewrite (byte_view 128 p); [|reflexivity| |exact Hi].
    2:{ apply (acc_sub _ _ _ _ _ Ha); unfold blk; change (128 / 8) with 16; lia. }
    destruct (Z.ltb_spec (p mod 16 + i) 16).
    - rewrite byte_view; [f_equal; unfold blk; lia|reflexivity|exact A1|change (128 / 8) with 16; lia].
    - rewrite byte_view; [f_equal; unfold blk; lia|reflexivity|exact A2|change (128 / 8) with 16 in *; lia].
  Qed.
  Definition u_pre (e : et) (s : rsz) (p : Z) (m : mem) : Prop :=
    p mod (eb e / 8) = 0 /\ accessible m p (rbits s / 8).
  Lemma i_load_u_ok e s p m : avail_et A e s = true -> u_pre e s p m ->
    (vmx e = true -> accessible m (blk p) 32) -> i_load_u A e s p m = Ok (view (rbits s) p m).
  Proof.
    intros HA [Hp Ha] Hx. destruct s.
    - cbn [rbits] in *. change (128 / 8) with 16 in *.
      assert (E1 : rd 128 p m = Ok (view 128 p m)) by (apply rd_ok; [easy|exact Ha]).
      assert (Hal : aligned (eb e / 8) p = true) by (apply Z.eqb_eq, Hp).
      assert (E2 : vld1q_mem (eb e) p m = Ok (view 128 p m)) by (unfold vld1q_mem; rewrite Hal; exact E1).
      assert (E2' : vld1q_mem 8 p m = Ok (view 128 p m)).
      { unfold vld1q_mem. replace (aligned (8 / 8) p) with true; [exact E1|]. symmetry. apply Z.eqb_eq, Z.mod_1_r. }
      assert (E5 : null_load (eb e) p m = Ok (view 128 p m)) by (apply null_load_ok; auto; [apply wok128|apply wok8e]).
      assert (E5' : null_load 8 p m = Ok (view 128 p m)) by (apply null_load_ok; auto; apply Z.eqb_eq, Z.mod_1_r).
      assert (E6 : vmx e = true \/ use_altivec A = false \/ use_vsx206 A = true -> i_load_u8 A p m = Ok (view 128 p m)).
      { intros Hc. unfold i_load_u8, mm_loadu, vec_vsx_ld, msa_ld. rewrite E1, E2', E5'.
        fam HV; repeat split_if; try reflexivity; try vimp HV.
        apply vmx_load, Hx. destruct Hc as [Hc|[Hc|Hc]]; [exact Hc|fcontra|fcontra]. }
      assert (E7 : use_altivec A = false -> i_load_u8 A p m = Ok (view 128 p m)) by (intros; apply E6; auto).
      assert (E8 : use_vsx206 A = true -> i_load_u8 A p m = Ok (view 128 p m)) by (intros; apply E6; auto).
      unfold i_load_u. unfold mm_loadu, vec_vsx_ld, msa_ld. rewrite E1.
      unfold vmx in E6.
      destruct e; cbn [eb] in *; rewrite ?E2, ?E5; unfold use_neon_no_flt_sp, use_neon64.
      all: try (apply E6; clear; destruct (use_altivec A), (use_vsx206 A); auto; fail).
      all: fam HV; repeat split_if; try reflexivity; try vimp HV;
        first [ apply E7; assumption | apply E8; first [assumption|pose proof (valid_imp _ HV) as HI; apply HI; assumption]
              | apply E6; left; rw_flags; reflexivity
              | destruct (use_vsx206 A) eqn:EV; [apply E8; first [reflexivity|exact EV]|first [vimp HV | apply E6; left; rw_flags; reflexivity]] ].
    - unfold i_load_u, if_wide. rewrite HA. apply rd_ok; [easy|exact Ha].
    - unfold i_load_u, if_wide. rewrite HA. apply rd_ok; [easy|exact Ha].
  Qed.
End R.
