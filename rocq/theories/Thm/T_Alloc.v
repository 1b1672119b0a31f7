(** C28. *)
From Verif Require Import Model.Alloc.
From Coq Require Import Permutation.
Open Scope Z_scope.

Section S.
  Variable ps : Z.
  Variable be : bool.
  Hypothesis Hps : ps = 4 \/ ps = 8.
  Notation wd := (wd ps).

  Lemma wd_pos : 0 < wd. Proof. unfold Alloc.wd. lia. Qed.
  Lemma byte_range i : 0 <= i < ps -> 0 <= byte_at ps be i < ps.
  Proof. unfold byte_at. destruct be; lia. Qed.
  Lemma byte_inv i : byte_at ps be (byte_at ps be i) = i.
  Proof. unfold byte_at. destruct be; lia. Qed.

  Lemma load_store m a v : 0 <= v < 2 ^ wd -> load_ptr ps be (store_ptr ps be m a v) a = v.
  Proof.
    intros Hv. unfold load_ptr. apply (reg_ext 8 (Z.to_nat ps)); try lia.
    - unfold reg. apply mk_range. lia.
    - unfold reg. rewrite Z2Nat.id by lia. exact Hv.
    - intros i Hi. rewrite lane_mk by lia. rewrite Z2Nat.id in Hi by lia. unfold store_ptr.
      pose proof (byte_range i Hi).
      replace ((a <=? a + byte_at ps be i) && (a + byte_at ps be i <? a + ps)) with true
        by (symmetry; apply andb_true_iff; split; [apply Z.leb_le|apply Z.ltb_lt]; lia).
      replace (a + byte_at ps be i - a) with (byte_at ps be i) by lia. rewrite byte_inv. apply wrap_lane.
  Qed.
  Lemma load_ext m m' a : (forall x, a <= x < a + ps -> m x = m' x) -> load_ptr ps be m a = load_ptr ps be m' a.
  Proof.
    intros H. unfold load_ptr. apply mk_ext. intros i Hi. rewrite Z2Nat.id in Hi by lia.
    pose proof (byte_range i Hi). rewrite H by lia. reflexivity.
  Qed.

  Definition pow2_or0 (A : Z) : Prop := A = 0 \/ exists k, 0 <= k /\ A = 2 ^ k.
  Lemma eff_align_pow A : pow2_or0 A -> exists k, 0 <= k /\ eff_align ps A = 2 ^ k.
  Proof.
    intros [->|(k & Hk & ->)]; unfold eff_align; destruct (Z.ltb_spec (if true then 0 else 0) 0); try lia.
    - destruct Hps as [-> | ->]; cbn; [exists 3|exists 4]; split; lia || reflexivity.
    - destruct (2 ^ k <? 2 * ps); [|exists k; auto].
      destruct Hps as [-> | ->]; cbn; [exists 3|exists 4]; split; lia || reflexivity.
  Qed.
  Lemma eff_align_ge A : 2 * ps <= eff_align ps A /\ A <= eff_align ps A.
  Proof. unfold eff_align. destruct (Z.ltb_spec A (2 * ps)); lia. Qed.
  Lemma eff_align_dvd A : pow2_or0 A -> A <> 0 -> (A | eff_align ps A).
  Proof.
    intros [->|(k & Hk & ->)]; [congruence|]. intros _. unfold eff_align.
    destruct (Z.ltb_spec (2 ^ k) (2 * ps)) as [H|]; [|apply Z.divide_refl].
    destruct Hps as [-> | ->].
    - change (2 * 4) with (2 ^ 3) in *. apply Z.pow_lt_mono_r_iff in H; try lia.
      exists (2 ^ (3 - k)). rewrite <- Z.pow_add_r by lia. f_equal. lia.
    - change (2 * 8) with (2 ^ 4) in *. apply Z.pow_lt_mono_r_iff in H; try lia.
      exists (2 ^ (4 - k)). rewrite <- Z.pow_add_r by lia. f_equal. lia.
  Qed.
  Lemma ps_dvd A : pow2_or0 A -> (ps | eff_align ps A).
  Proof.
    intros H. pose proof (eff_align_ge A) as [H1 _]. destruct (eff_align_pow A H) as (k & Hk & HE).
    rewrite HE in *. assert (exists j, 0 <= j /\ ps = 2 ^ j) as (j & Hj & Hp).
    { destruct Hps as [-> | ->]; [exists 2|exists 3]; split; lia || reflexivity. }
    assert (j < k). { apply (Z.pow_lt_mono_r_iff 2); lia. }
    rewrite Hp. exists (2 ^ (k - j)). rewrite <- Z.pow_add_r by lia. f_equal. lia.
  Qed.

  (** the truncation: the first multiple of the effective alignment above pv *)
  Lemma align_up_ok A pv : pow2_or0 A -> 0 <= pv -> pv + eff_align ps A < 2 ^ wd ->
    align_up ps A pv = (pv / eff_align ps A + 1) * eff_align ps A.
  Proof.
    intros HA Hpv HW. unfold align_up. destruct (eff_align_pow A HA) as (k & Hk & HE). rewrite HE in *.
    assert (0 < 2 ^ k) by (apply Z.pow_pos_nonneg; lia).
    rewrite wrap_small by lia. set (x := pv + 2 ^ k) in *. pose proof wd_pos.
    assert (Z.land x (Z.lxor (2 ^ k - 1) (ones wd)) = Z.ldiff x (Z.ones k)) as ->.
    { apply Z.bits_inj'. intros i Hi. rewrite Z.land_spec, Z.ldiff_spec, Z.lxor_spec.
      replace (2 ^ k - 1) with (Z.ones k) by (rewrite Z.ones_equiv; lia).
      unfold ones. replace (2 ^ wd - 1) with (Z.ones wd) by (rewrite Z.ones_equiv; lia).
      destruct (Z_lt_dec i wd) as [Hl|Hl].
      - rewrite (Z.ones_spec_low wd) by lia. rewrite xorb_true_r. reflexivity.
      - rewrite (testbit_high wd x) by lia. reflexivity. }
    rewrite Z.ldiff_ones_r by lia. rewrite Z.shiftl_mul_pow2, Z.shiftr_div_pow2 by lia.
    subst x. replace (pv + 2 ^ k) with (pv + 1 * 2 ^ k) by lia. rewrite Z.div_add by lia. reflexivity.
  Qed.

  (** ---- the property of one allocation ---- *)
  (** n = 0 gives null, too large n throws, and nothing else does either *)
  Theorem allocate_null : forall sz A n heap m,
    allocate ps be sz A n heap m = Null <-> n = 0.
  Proof.
    intros. unfold allocate. destruct (Z.eqb_spec n 0); split; intros H; auto; try contradiction.
    destruct (max_size ps sz <? n); discriminate.
  Qed.
  Theorem allocate_throws : forall sz A n heap m, 0 < sz -> 0 <= n ->
    (allocate ps be sz A n heap m = LengthError <-> 2 ^ wd <= n * sz).
  Proof.
    intros sz A n heap m Hsz Hn. unfold allocate, max_size. pose proof wd_pos.
    replace (wrap wd (0 - 1)) with (2 ^ wd - 1).
    2:{ symmetry. unfold wrap. rewrite <- (Z.mod_small (2 ^ wd - 1) (2 ^ wd)) by
          (assert (0 < 2 ^ wd) by (apply Z.pow_pos_nonneg; lia); lia).
        replace (0 - 1) with (2 ^ wd - 1 + (-1) * 2 ^ wd) by lia.
        rewrite Z_mod_plus_full. reflexivity. }
    assert (0 < 2 ^ wd) by (apply Z.pow_pos_nonneg; lia).
    destruct (Z.eqb_spec n 0) as [->|Hn0].
    - split; [discriminate|]. intros. lia.
    - destruct (Z.ltb_spec ((2 ^ wd - 1) / sz) n) as [HL|HL]; split; intros H1; auto; try discriminate.
      + assert (2 ^ wd - 1 < n * sz); [|lia].
        pose proof (Z.div_mod (2 ^ wd - 1) sz ltac:(lia)).
        pose proof (Z.mod_pos_bound (2 ^ wd - 1) sz ltac:(lia)). nia.
      + exfalso. assert (sz * n <= sz * ((2 ^ wd - 1) / sz)) by nia.
        pose proof (Z.mul_div_le (2 ^ wd - 1) sz ltac:(lia)). lia.
  Qed.
  (** otherwise: aligned storage of n objects inside the block, after room for the
      bookkeeping pointer *)
  Theorem allocate_spec_partial : forall sz A n heap m p pv size m',
    0 < sz -> pow2_or0 A -> 0 <= n ->
    n * sz + eff_align ps A < 2 ^ wd ->
    allocate ps be sz A n heap m = Got p pv size m' ->
    (0 < pv -> pv + size <= 2 ^ wd -> pv mod ps = 0 ->
     size = n * sz + eff_align ps A /\
     (A <> 0 -> p mod A = 0) /\ p <> 0 /\
     pv <= p - ps /\ p + n * sz <= pv + size /\
     (forall x, ~ (p - ps <= x < p) -> m' x = m x) /\
     deallocate ps be p m' = Some pv).
  Proof.
    intros sz A n heap m p pv size m' Hsz HA Hn HF HG Hpv HB Hal. unfold allocate in HG.
    destruct (Z.eqb_spec n 0) as [|Hn0]; [discriminate|].
    destruct (max_size ps sz <? n); [discriminate|].
    pose proof wd_pos as HW. pose proof (eff_align_ge A) as [HE1 HE2]. assert (1 <= n * sz) by nia.
    assert (new_size ps sz A n = n * sz + eff_align ps A) as HS.
    { unfold new_size. rewrite (wrap_small wd (n * sz)) by lia. apply wrap_small. lia. }
    set (hp := heap (new_size ps sz A n)) in *.
    assert (p = align_up ps A hp /\ pv = hp /\ size = new_size ps sz A n /\
      m' = store_ptr ps be m (align_up ps A hp - ps) hp) as (-> & -> & -> & ->)
      by (inversion HG; auto). rewrite HS in *. clear HG HS.
    set (al := eff_align ps A) in *.
    assert (align_up ps A hp = (hp / al + 1) * al) as HP by (apply align_up_ok; auto; try (fold al; lia)).
    rewrite HP. pose proof (Z.div_mod hp al ltac:(lia)) as HD.
    pose proof (Z.mod_pos_bound hp al ltac:(lia)) as HM.
    destruct (ps_dvd A HA) as [j Hj]. fold al in Hj.
    assert (hp mod al <= al - ps) as HR.
    { apply Z.mod_divide in Hal; [|lia]. destruct Hal as [q Hq].
      assert (hp mod al = ps * (q - (hp / al) * j)) as HX by nia.
      assert (q - (hp / al) * j < j) by nia. nia. }
    repeat split; try nia.
    - intros HA0. apply Z.mod_divide; auto. apply Z.divide_mul_r. apply eff_align_dvd; auto.
    - intros x Hx. unfold store_ptr. destruct (Z.leb_spec ((hp / al + 1) * al - ps) x); cbn; auto.
      destruct (Z.ltb_spec x ((hp / al + 1) * al - ps + ps)); auto. exfalso. lia.
    - unfold deallocate. destruct (Z.eqb_spec ((hp / al + 1) * al) 0); [exfalso; nia|].
      f_equal. apply load_store. lia.
  Qed.

  (** ---- histories ---- *)
  Definition sane (s : state) : Prop :=
    (forall e, In e (live s) ->
       0 < e_blk e /\ e_blk e <= e_ptr e - ps /\ 0 <= e_bytes e /\
       e_ptr e + e_bytes e <= e_blk e + e_size e /\
       (e_al e <> 0 -> e_ptr e mod e_al e = 0) /\
       deallocate ps be (e_ptr e) (memory s) = Some (e_blk e)) /\
    ForallOrdPairs disj (blocks s) /\ bad s = false.
  Lemma disj_sym b c : disj b c -> disj c b.
  Proof. unfold disj. tauto. Qed.
  Lemma fop_perm (l l' : list (Z * Z)) : Permutation l l' -> ForallOrdPairs disj l -> ForallOrdPairs disj l'.
  Proof.
    intros HP. induction HP as [|x l l' HP IH|x y l|l l' l'' HP1 IH1 HP2 IH2]; intros H; auto.
    - inversion H; subst. constructor; auto. eapply Permutation_Forall; eauto.
    - inversion H as [|? ? H1 H2]; subst. inversion H2 as [|? ? H3 H4]; subst.
      inversion H1; subst. constructor; [constructor; auto using disj_sym|]. constructor; auto.
  Qed.
  Lemma fop_cons x (l : list (Z * Z)) : ForallOrdPairs disj (x :: l) -> Forall (disj x) l /\ ForallOrdPairs disj l.
  Proof. intros H. inversion H; auto. Qed.
  Lemma blocks_split s l1 e l2 : live s = l1 ++ e :: l2 ->
    Permutation (blocks s) ((e_blk e, e_size e) :: map (fun e => (e_blk e, e_size e)) (l1 ++ l2) ++ foreign s).
  Proof.
    intros H. unfold blocks. rewrite H, !map_app. cbn. rewrite <- !app_assoc. cbn.
    apply Permutation_sym, Permutation_middle.
  Qed.
  (** a store that misses the bookkeeping word of [e] does not disturb it *)
  Lemma dealloc_set m p x v : (x < p - ps \/ p <= x) ->
    deallocate ps be p (set_byte m x v) = deallocate ps be p m.
  Proof.
    intros H. unfold deallocate. destruct (p =? 0); auto. f_equal. apply load_ext. intros y Hy.
    unfold set_byte. destruct (Z.eqb_spec y x); auto. lia.
  Qed.
  Lemma two_blocks s e f : ForallOrdPairs disj (blocks s) -> In e (live s) -> In f (live s) ->
    e = f \/ disj (e_blk e, e_size e) (e_blk f, e_size f).
  Proof.
    intros HF He Hf. apply in_split in He. destruct He as (l1 & l2 & HE).
    pose proof (fop_perm _ _ (blocks_split s l1 e l2 HE) HF) as H. apply fop_cons in H. destruct H as [H _].
    rewrite HE in Hf. apply in_app_or in Hf. destruct Hf as [Hf|[Hf|Hf]]; auto; right;
      rewrite Forall_forall in H; apply H; apply in_or_app; left; apply in_map_iff; exists f; split; auto;
      apply in_or_app; auto.
  Qed.
  Lemma foreign_block s e b : ForallOrdPairs disj (blocks s) -> In e (live s) -> In b (foreign s) ->
    disj (e_blk e, e_size e) b.
  Proof.
    intros HF He Hb. apply in_split in He. destruct He as (l1 & l2 & HE).
    pose proof (fop_perm _ _ (blocks_split s l1 e l2 HE) HF) as H. apply fop_cons in H. destruct H as [H _].
    rewrite Forall_forall in H. apply H. apply in_or_app. auto.
  Qed.
  Lemma sane_write s e' x v :
    sane s -> (forall e, In e (live s) -> x < e_ptr e - ps \/ e_ptr e <= x) ->
    e' = mkState (set_byte (memory s) x v) (live s) (foreign s) (bad s) -> sane e'.
  Proof.
    intros (I1 & I2 & I3) HX ->. split; [|split]; auto. intros e He. cbn in *.
    destruct (I1 e He) as (A & B & C & D & E & F). repeat split; auto.
    rewrite dealloc_set; auto.
  Qed.
  Lemma sane_step s s' : step ps be s s' -> sane s -> sane s'.
  Proof.
    intros HS (I1 & I2 & I3). destruct HS as
      [s sz A n heap p pv size m' Hsz HA Hn HF HG (F1 & F2 & F3 & F4)|s e x v He Hx Hv|s b (F1 & F2 & F3 & F4) Hb
      |s b x v Hb Hx Hv|s l1 b l2 HE|s l1 e l2 HE HD|s e He HD]; cbn [fst snd] in *.
    - destruct (allocate_spec_partial sz A n heap (memory s) p pv size m' Hsz HA ltac:(lia) HF HG F1 F2 F3)
        as (A1 & A2 & A3 & A4 & A5 & A6 & A7).
      split; [|split]; cbn; auto.
      + intros e [<-|He]; cbn.
        * repeat split; auto. nia.
        * destruct (I1 e He) as (B & C & D & E & G & J). repeat split; auto.
          rewrite <- J. unfold deallocate. destruct (e_ptr e =? 0); auto. f_equal. apply load_ext.
          intros y Hy. apply A6.
          rewrite Forall_forall in F4. assert (disj (pv, size) (e_blk e, e_size e)) as HDj.
          { apply F4. unfold blocks. apply in_or_app. left. apply in_map_iff. eauto. }
          unfold disj in HDj. cbn in HDj. nia.
      + unfold blocks. cbn. constructor; auto.
    - eapply sane_write; [split; [exact I1|split; [exact I2|exact I3]]| |reflexivity].
      intros f Hf. unfold inside in Hx. cbn in Hx.
      destruct (I1 e He) as (A & B & C & D & E & F). destruct (I1 f Hf) as (A' & B' & C' & D' & E' & F').
      destruct (two_blocks s e f I2 He Hf) as [<-|HDj]; [lia|]. unfold disj in HDj. cbn in HDj. lia.
    - split; [|split]; cbn; auto. apply fop_perm with (l := b :: blocks s).
      + unfold blocks. cbn. apply Permutation_middle.
      + constructor; auto.
    - eapply sane_write; [split; [exact I1|split; [exact I2|exact I3]]| |reflexivity].
      intros f Hf. pose proof (foreign_block s f b I2 Hf Hb) as HDj. unfold disj, inside in *. cbn in *.
      destruct (I1 f Hf) as (A' & B' & C' & D' & E' & F'). lia.
    - split; [|split]; cbn; auto. assert (Permutation (blocks s) (b :: map (fun e => (e_blk e, e_size e)) (live s) ++ l1 ++ l2)).
      { unfold blocks. rewrite HE. rewrite app_assoc. eapply perm_trans; [apply Permutation_sym, Permutation_middle|].
        rewrite <- app_assoc. auto. }
      eapply fop_perm in I2; [|exact H]. apply fop_cons in I2. apply I2.
    - split; [|split]; cbn; auto.
      + intros f Hf. apply I1. rewrite HE. apply in_or_app. apply in_app_or in Hf. cbn. tauto.
      + eapply fop_perm in I2; [|apply blocks_split; exact HE]. apply fop_cons in I2. apply I2.
    - exfalso. apply HD. apply I1. exact He.
  Qed.
  Lemma sane_reach s : reachable ps be s -> sane s.
  Proof.
    intros H. induction H as [m|s s' _ IH HS]; [|eapply sane_step; eauto].
    split; [|split]; cbn; auto; [intros e []|constructor].
  Qed.

  (** At every point of every history of allocations, deallocations, user stores into the
      storage they own and arbitrary other use of the heap: every live allocation is
      aligned as requested, lies inside its own heap block together with its bookkeeping
      word, is disjoint from every other live allocation and from all other heap blocks,
      deallocating it hands exactly that block back, and no other pointer was ever passed
      to delete[].  Requests whose total size does not fit std::size_t are excluded (see
      [allocate_wrap_refuted]). *)
  Theorem allocator_history_partial : forall s, reachable ps be s ->
    bad s = false /\
    forall e, In e (live s) ->
      (e_al e <> 0 -> e_ptr e mod e_al e = 0) /\
      e_blk e <= e_ptr e - ps /\ e_ptr e + e_bytes e <= e_blk e + e_size e /\
      deallocate ps be (e_ptr e) (memory s) = Some (e_blk e) /\
      (forall f, In f (live s) -> e = f \/ disj (e_ptr e, e_bytes e) (e_ptr f, e_bytes f)) /\
      (forall b, In b (foreign s) -> disj (e_ptr e, e_bytes e) b).
  Proof.
    intros s H. apply sane_reach in H. destruct H as (I1 & I2 & I3). split; auto.
    intros e He. destruct (I1 e He) as (A & B & C & D & E & F). repeat split; auto.
    - intros f Hf. destruct (two_blocks s e f I2 He Hf) as [|HDj]; auto. right.
      destruct (I1 f Hf) as (A' & B' & C' & D' & E' & F'). unfold disj in *. cbn in *. lia.
    - intros b Hb. pose proof (foreign_block s e b I2 He Hb) as HDj. unfold disj in *. cbn in *. lia.
  Qed.
End S.

(** A request of at most max_size() objects whose size plus the alignment does not fit
    std::size_t: the block requested from the heap is far too small, and the storage
    handed out extends beyond it. *)
Theorem allocate_wrap_refuted :
  let n := 2 ^ 60 - 1 in let sz := 16 in
  n <= max_size 8 sz /\
  exists m', allocate 8 false sz 64 n (fun _ => 4096) (fun _ => 0) = Got 4160 4096 48 m' /\
    4096 + 48 < 4160 + n * sz.
Proof.
  cbn zeta. split; [vm_compute; discriminate|]. eexists. split; [|reflexivity].
  unfold allocate. reflexivity.
Qed.

Example allocate_case : exists m',
  allocate 8 false 4 32 10 (fun _ => 4104) (fun _ => 0) = Got 4128 4104 72 m' /\
  deallocate 8 false 4128 m' = Some 4104.
Proof. eexists. split; reflexivity. Qed.
(** a reachable state with two allocations, one of them written to *)
Example history_case : exists s, reachable 8 false s /\ length (live s) = 2%nat.
Proof.
  eexists. split.
  - eapply r_step; [eapply r_step; [eapply r_step; [apply (r_init 8 false (fun _ => 0))|]|]|].
    + eapply (s_alloc 8 false _ 4 32 10 (fun _ => 4104) 4128 4104 72 _).
      * lia.
      * right. exists 5. split; lia || reflexivity.
      * vm_compute. split; congruence.
      * reflexivity.
      * reflexivity.
      * split; [reflexivity|split; [vm_compute; congruence|split; [reflexivity|constructor]]].
    + apply (s_write 8 false _ (mkEnt 4128 40 32 4104 72) 4130 7); [left; reflexivity|unfold inside; cbn; lia|lia].
    + eapply (s_alloc 8 false _ 16 64 3 (fun _ => 8192) 8256 8192 112 _).
      * lia.
      * right. exists 6. split; lia || reflexivity.
      * vm_compute. split; congruence.
      * reflexivity.
      * reflexivity.
      * split; [reflexivity|split; [vm_compute; congruence|split; [reflexivity|constructor; [right; vm_compute; congruence|constructor]]]].
  - reflexivity.
Qed.
