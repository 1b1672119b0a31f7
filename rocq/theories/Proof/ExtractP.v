(** extract, insert and for_each on one register. *)
From Verif Require Export Model.Extract Proof.LoadStoreP4 Proof.PackedP3 Proof.SetSplatP Spec.Elements.

Lemma ins_reg w R id x a : wok w R = true -> reg R (ins w R id x a).
Proof. apply pack_reg. Qed.
Lemma lane_ins w R id x a j : wok w R = true -> 0 <= j < R / w -> lane w j (ins w R id x a) = if j =? id then wrap w x else lane w j a.
Proof. intros. unfold ins. rewrite lane_pack by auto. destruct (j =? id); [reflexivity|apply wrap_lane]. Qed.
Lemma ins_eq w R id x a r : wok w R = true -> reg R r ->
  (forall j, 0 <= j < R / w -> lane w j r = if j =? id then wrap w x else lane w j a) -> r = ins w R id x a.
Proof. intros W Hr H. apply (reg_lanes w R); auto using ins_reg. intros j Hj. rewrite lane_ins by auto. apply H, Hj. Qed.
(** writing a part of a wider lane *)
Lemma ins_part w k R id x a r : wok w R = true -> wok (w * k) R = true -> 0 < k -> 0 <= id < R / w ->
  (forall j, 0 <= j < k -> lane w j r = if j =? id mod k then wrap w x else lane w (k * (id / k) + j) a) ->
  ins (w * k) R (id / k) r a = ins w R id x a.
Proof.
  intros W Wk Hk Hid H. destruct (wok_spec _ _ W) as (Hw & HR & E & _). destruct (wok_spec _ _ Wk) as (Hw2 & _ & E2 & _).
  apply ins_eq; [exact W|apply ins_reg, Wk|]. intros j Hj.
  rewrite (lane_sub w k) by lia.
  assert (R / w = k * (R / (w * k))) as EK by (apply (Z.mul_cancel_l _ _ w); [lia|]; lia).
  pose proof (Z.mod_pos_bound j k Hk) as M. pose proof (Z.div_mod j k ltac:(lia)) as D.
  pose proof (Z.mod_pos_bound id k Hk) as M'. pose proof (Z.div_mod id k ltac:(lia)) as D'.
  assert (0 <= j / k < R / (w * k)) as Hd by (split; [apply Z.div_pos; lia|apply Z.div_lt_upper_bound; lia]).
  rewrite lane_ins by auto. destruct (Z.eqb_spec (j / k) (id / k)) as [Eq | Ne].
  - assert (lane w (j mod k) (wrap (w * k) r) = lane w (j mod k) r) as ->.
    { rewrite <- lane_0 by lia. rewrite (lane_lane w k) by lia. f_equal. }
    rewrite H by lia. destruct (Z.eqb_spec (j mod k) (id mod k)), (Z.eqb_spec j id); try lia; auto.
    f_equal. lia.
  - destruct (Z.eqb_spec j id); [subst; lia|]. rewrite <- lane_sub by lia. reflexivity.
Qed.
(** ... both halves of one *)
Lemma ins_double w R id x a : wok w R = true -> wok (w * 2) R = true -> 0 <= id < R / (w * 2) ->
  ins w R (id * 2 + 1) (wrap w (Z.shiftr x w)) (ins w R (id * 2) (wrap w x) a) = ins (w * 2) R id x a.
Proof.
  intros W W2 Hid. destruct (wok_spec _ _ W) as (Hw & HR & E & _). destruct (wok_spec _ _ W2) as (Hw2 & _ & E2 & _).
  assert (R / w = 2 * (R / (w * 2))) as EK by (apply (Z.mul_cancel_l _ _ w); lia).
  apply ins_eq; [exact W2|apply ins_reg, W|]. intros j Hj. rewrite lane_double by lia. rewrite !lane_ins by (first [exact W | lia]).
  replace (2 * j =? id * 2 + 1) with false by (symmetry; apply Z.eqb_neq; lia).
  replace (2 * j + 1 =? id * 2) with false by (symmetry; apply Z.eqb_neq; lia).
  destruct (Z.eqb_spec j id) as [-> | Ne].
  - replace (2 * id =? id * 2) with true by (symmetry; apply Z.eqb_eq; lia).
    replace (2 * id + 1 =? id * 2 + 1) with true by (symmetry; apply Z.eqb_eq; lia).
    rewrite !wrap_wrap by lia.
    replace (wrap w (Z.shiftr x w)) with (lane w (2 * 0 + 1) (wrap (w * 2) x)).
    + replace (wrap w x) with (lane w (2 * 0) (wrap (w * 2) x)).
      * rewrite <- lane_double by lia. rewrite lane_0 by lia. apply wrap_wrap.
      * apply (bits_ext w); [lia|apply lane_range; lia|apply wrap_range; lia|]. intros n Hn. rewrite testbit_lane, !testbit_wrap by lia. replace (w * (2 * 0) + n) with n by lia.
        destruct (Z.ltb_spec n w), (Z.ltb_spec n (w * 2)); try lia. reflexivity.
    + apply (bits_ext w); [lia|apply lane_range; lia|apply wrap_range; lia|]. intros n Hn. rewrite testbit_lane, !testbit_wrap, Z.shiftr_spec by lia. replace (w * (2 * 0 + 1) + n) with (n + w) by lia.
      destruct (Z.ltb_spec n w), (Z.ltb_spec (n + w) (w * 2)); try lia. reflexivity.
  - replace (2 * j =? id * 2) with false by (symmetry; apply Z.eqb_neq; lia).
    replace (2 * j + 1 =? id * 2 + 1) with false by (symmetry; apply Z.eqb_neq; lia).
    symmetry. apply lane_double; lia.
Qed.

Section M.
  Variables (A : arch) (fp : Z).
  Hypothesis HV : valid_arch A = true.
  (** the array at fp holds the elements of a *)
  Definition got (w R a : Z) (m : mem) : Prop :=
    accessible m fp (R / 8) /\ forall i, 0 <= i < R / w -> number (Z.to_nat (w / 8)) m (fp + i * (w / 8)) = lane w i a.
  Lemma frame_acc s : accessible (frame fp s) fp (rbits s / 8).
  Proof.
    intros q Hq. unfold frame. replace ((fp <=? q) && (q <? fp + rbits s / 8)) with true.
    - exists 0. split; [reflexivity|lia].
    - symmetry. apply andb_true_iff. split; [apply Z.leb_le|apply Z.ltb_lt]; lia.
  Qed.
  Lemma got_stored w R sel a' m r : wok w R = true -> wok 8 w = true -> accessible m fp (R / 8) ->
    stored w R sel a' fp m r ->
    (forall i, 0 <= i < R / w -> sel i = false -> number (Z.to_nat (w / 8)) m (fp + i * (w / 8)) = lane w i a') ->
    exists m', r = Ok m' /\ got w R a' m'.
  Proof.
    intros W1 W2 Ha (m' & E & Hm) H. exists m'. split; [exact E|]. split.
    - eapply only_acc; [eapply only_put; [exact Ha|exact Hm]|exact Ha].
    - intros i Hi. destruct (wok_spec _ _ W1) as (Hw & HR & E0 & En).
      pose proof (array_put w R fp sel a' m m' W1 W2 Ha Hm) as EA.
      apply (f_equal (fun l => nth (Z.to_nat i) l 0)) in EA.
      unfold array in EA. rewrite !(nth_map' _ _ _ 0%nat) in EA by (rewrite seq_length; lia).
      rewrite seq_nth in EA by lia. cbn [Nat.add] in EA. rewrite Z2Nat.id in EA by lia. rewrite EA.
      destruct (sel i) eqn:ES; [reflexivity|]. apply H; auto.
  Qed.
  Lemma mem_block_ok e s a : avail_et A e s = true -> fp mod (rbits s / 8) = 0 ->
    exists m, mem_block A fp e s a = Ok m /\ got (eb e) (rbits s) a m.
  Proof.
    intros HA Hp. unfold mem_block. eapply got_stored; [apply wokR|apply wok8e|apply frame_acc| |].
    - apply i_store_ok; auto using frame_acc.
    - unfold all. discriminate.
  Qed.
  Lemma mb_get_ok w R a m id : wok w R = true -> wok 8 w = true -> aligned (w / 8) fp = true -> got w R a m -> 0 <= id < R / w ->
    mb_get fp w id m = Ok (lane w id a).
  Proof.
    intros W1 W2 Hal [Ha H] Hid. destruct (wok_spec _ _ W1) as (Hw & HR & E & En). destruct (wok_div _ _ W1 W2) as (Hk & Rd & E3).
    unfold mb_get, ld_el. replace (aligned (w / 8) (fp + id * (w / 8))) with true.
    2:{ symmetry. apply Z.eqb_eq. rewrite Z.mod_add by lia. apply Z.eqb_eq, Hal. }
    cbn [require]. assert (accessible m (fp + id * (w / 8)) (w / 8)) as Hs by (apply (acc_sub _ _ _ _ _ Ha); nia).
    rewrite rd_ok by (auto; lia). rewrite <- H by lia. rewrite number_mk by (rewrite Z2Nat.id by lia; auto). reflexivity.
  Qed.
  Lemma st_el_got w R a m id x : wok w R = true -> wok 8 w = true -> aligned (w / 8) fp = true -> got w R a m -> 0 <= id < R / w ->
    0 <= x < 2 ^ w ->
    exists m', st_el w (fp + id * (w / 8)) x m = Ok m' /\ got w R (ins w R id x a) m'.
  Proof.
    intros W1 W2 Hal [Ha H] Hid Hx.
    apply (got_stored w R (fun j => j =? id) _ m); auto.
    - replace x with (lane w id (ins w R id x a)) at 2.
      + apply stored_el; auto.
      + rewrite lane_ins, Z.eqb_refl by auto. apply wrap_small, Hx.
    - intros i Hi Hn. rewrite lane_ins, Hn by auto. apply H, Hi.
  Qed.
  Lemma load_got e s a m : avail_et A e s = true -> fp mod (rbits s / 8) = 0 -> reg (rbits s) a -> got (eb e) (rbits s) a m ->
    i_load A e s fp m = Ok a.
  Proof.
    intros HA Hp Ha [Hac H]. rewrite (i_load_ok A HV e s fp m) by auto. apply f_equal.
    apply (reg_lanes (eb e) (rbits s)); auto using wokR, view_reg, wok8R.
    intros i Hi. rewrite lane_view by (auto using wokR, wok8R, wok8e). apply H, Hi.
  Qed.
  Lemma al_fp e s : fp mod (rbits s / 8) = 0 -> aligned (eb e / 8) fp = true.
  Proof.
    intros H. apply Z.eqb_eq. assert (exists k, 0 < k /\ rbits s / 8 = k * (eb e / 8)) as (k & Hk & E).
    { exists (rbits s / eb e). destruct s, e; split; reflexivity. }
    rewrite E in H. assert (0 < eb e / 8) by (destruct e; reflexivity). apply Z.mod_divide in H; [|nia]. destruct H as [z ->].
    replace (z * (k * (eb e / 8))) with (z * k * (eb e / 8)) by ring. apply Z.mod_mul. lia.
  Qed.

  Section X.
    Variables (e : et) (a : Z).
    Hypotheses (HA : avail_et A e R128 = true) (Ha : reg 128 a) (Hp : fp mod 16 = 0).
    Lemma x_block id : 0 <= id < 128 / eb e ->
      (let* m := mem_block A fp e R128 a in mb_get fp (eb e) id m) = Ok (lane (eb e) id a).
    Proof.
      intros Hid. destruct (mem_block_ok e R128 a HA Hp) as (m & E & G). rewrite E. cbn [bind].
      apply (mb_get_ok (eb e) 128 a); auto using wok128, wok8e. apply (al_fp e R128), Hp.
    Qed.
    Lemma x_block_ste id : 0 <= id < 128 / eb e ->
      (let* m := mem_block A fp e R128 a in let* m := vec_ste (eb e) a (fp + id * (eb e / 8)) m in mb_get fp (eb e) id m) = Ok (lane (eb e) id a).
    Proof.
      intros Hid. destruct (mem_block_ok e R128 a HA Hp) as (m & E & G). rewrite E. cbn [bind].
      assert (0 < eb e / 8 /\ 16 = 128 / eb e * (eb e / 8)) as [Hb E16] by (destruct e; split; reflexivity).
      assert ((fp + id * (eb e / 8)) mod (eb e / 8) = 0) as M0.
      { rewrite Z.mod_add by lia. apply Z.eqb_eq, (al_fp e R128), Hp. }
      unfold vec_ste. rewrite M0. rewrite Z.sub_0_r.
      replace ((fp + id * (eb e / 8)) mod 16) with (id * (eb e / 8)).
      2:{ rewrite Z.add_mod, Hp, Z.add_0_l, Z.mod_mod by lia. symmetry. apply Z.mod_small. nia. }
      rewrite Z.div_mul by lia.
      destruct (st_el_got (eb e) 128 a m id (lane (eb e) id a)) as (m' & E' & G'); auto using wok128, wok8e.
      { apply (al_fp e R128), Hp. } { apply lane_range. destruct e; cbn; lia. }
      rewrite E'. cbn [bind]. rewrite (mb_get_ok (eb e) 128 (ins (eb e) 128 id (lane (eb e) id a) a)); auto using wok128, wok8e.
      - rewrite lane_ins, Z.eqb_refl by auto using wok128. rewrite wrap_lane. reflexivity.
      - apply (al_fp e R128), Hp.
    Qed.
    Lemma i_block id x : 0 <= id < 128 / eb e -> 0 <= x < 2 ^ eb e ->
      (let* m := mem_block A fp e R128 a in let* m := st_el (eb e) (fp + id * (eb e / 8)) x m in i_load A e R128 fp m) =
      Ok (ins (eb e) 128 id x a).
    Proof.
      intros Hid Hx. destruct (mem_block_ok e R128 a HA Hp) as (m & E & G). rewrite E. cbn [bind].
      destruct (st_el_got (eb e) 128 a m id x) as (m' & E' & G'); auto using wok128, wok8e.
      { apply (al_fp e R128), Hp. }
      rewrite E'. cbn [bind]. apply load_got; auto. apply ins_reg, wok128.
    Qed.
  End X.
  Variable a : Z.
  Hypotheses (Ha : reg 128 a) (Hp : fp mod 16 = 0).

  Lemma x32_ok id t : 0 <= id < 4 -> reg 128 t ->
    (if use_sse41 A then Ok (lane 32 id t)
     else let* t := i_move_l_wrapper A I32 R128 id t in Ok (lane 32 0 t)) = Ok (lane 32 id t).
  Proof.
    intros Hid Ht. destruct (use_sse41 A); [reflexivity|]. rewrite i_move_l_wrapper_ok by (auto; cbn; lia). cbn [bind eb en rbits].
    apply f_equal. change 0 with (4 * 0 + 0) at 1. rewrite lane_lsh by (try reflexivity; cbn; lia).
    unfold p_move_l. change (en I32) with 4. destruct (Z.ltb_spec (0 + id) 4); [|lia]. cbn [nth]. f_equal.
  Qed.
  Lemma lor_halves id t : 0 <= id -> Z.lor (lane 32 (id * 2) t) (Z.shiftl (lane 32 (id * 2 + 1) t) 32) = lane 64 id t.
  Proof.
    intros Hid. apply Z.bits_inj'. intros k Hk. rewrite Z.lor_spec, Z.shiftl_spec, (testbit_lane 32 (id * 2)), (testbit_lane 64) by lia.
    destruct (Z.ltb_spec k 32).
    - rewrite Z.testbit_neg_r with (n := k - 32) by lia. destruct (Z.ltb_spec k 64); [|lia]. cbn [andb]. rewrite orb_false_r. f_equal. lia.
    - rewrite testbit_lane by lia. cbn [andb orb]. destruct (Z.ltb_spec (k - 32) 32), (Z.ltb_spec k 64); try lia; cbn [andb orb]; auto. f_equal. lia.
  Qed.
  Lemma extract128_ok e id : 0 <= id < 128 / eb e -> extract128 A fp e id a = Ok (lane (eb e) id a).
  Proof.
    intros Hid. assert (HA : avail_et A e R128 = true) by (destruct e; reflexivity).
    pose proof (x_block e a HA Hp id Hid) as EB. pose proof (x_block_ste e a HA Hp id Hid) as ES.
    unfold extract128. cbv beta zeta. rewrite EB, ES. clear EB ES.
    destruct e; cbn [eb] in *.
    - assert (Ok (wrap 8 (Z.shiftr (lane 16 (id / 2) a) (if id mod 2 =? 1 then 8 else 0))) = Ok (lane 8 id a)) as E8.
      { apply f_equal. change (128 / 8) with 16 in Hid. pose proof (Z.div_mod id 2 ltac:(lia)) as D. pose proof (Z.mod_pos_bound id 2 ltac:(lia)) as M.
        assert (0 <= id / 2) by (apply Z.div_pos; lia).
        apply (bits_ext 8); [lia|apply wrap_range; lia|apply lane_range; lia|]. intros k Hk. rewrite testbit_wrap, Z.shiftr_spec, (testbit_lane 8 id) by lia.
        destruct (Z.eqb_spec (id mod 2) 1); rewrite testbit_lane by lia;
          destruct (Z.ltb_spec k 8); try lia; cbn [andb].
        - destruct (Z.ltb_spec (k + 8) 16); [|lia]. cbn [andb]. f_equal. lia.
        - destruct (Z.ltb_spec (k + 0) 16); [|lia]. cbn [andb]. f_equal. lia. }
      rewrite E8. fam HV; rw_flags; cbn [orb andb negb]; repeat split_if; try reflexivity; vimp HV.
    - fam HV; rw_flags; cbn [orb andb negb]; repeat split_if; try reflexivity; vimp HV.
    - change (128 / 32) with 4 in Hid. rewrite (x32_ok id a) by (auto; lia).
      fam HV; rw_flags; cbn [orb andb negb]; repeat split_if; try reflexivity; vimp HV.
    - change (128 / 64) with 2 in Hid.
      assert (i_move_l_wrapper A I64 R128 id a = Ok (lsh 64 128 2 (p_move_l 2 id) [a])) as EM by (apply (i_move_l_wrapper_ok A I64 R128); auto; cbn; lia).
      assert (i_move_l_wrapper A I32 R128 (id * 2) a = Ok (lsh 32 128 4 (p_move_l 4 (id * 2)) [a])) as EM2 by (apply (i_move_l_wrapper_ok A I32 R128); auto; cbn; lia).
      assert (id = 0 \/ id = 1) as HC by lia.
      assert (E64 : lane 64 0 (lsh 64 128 2 (p_move_l 2 id) [a]) = lane 64 id a).
      { change 0 with (2 * 0 + 0) at 1. rewrite lane_lsh by (try reflexivity; cbn; lia). destruct HC as [-> | ->]; reflexivity. }
      set (t1 := lsh 32 128 4 (p_move_l 4 (id * 2)) [a]) in *. assert (Ht1 : reg 128 t1) by (apply lsh_reg; reflexivity).
      assert (EL1 : forall i, 0 <= i < 2 -> lane 32 i t1 = lane 32 (id * 2 + i) a).
      { intros i Hi. unfold t1. replace i with (4 * 0 + i) at 1 by lia. rewrite lane_lsh by (try reflexivity; cbn; lia).
        unfold p_move_l. destruct (Z.ltb_spec (i + id * 2) 4); [|lia]. cbn [nth]. f_equal. lia. }
      assert (EM3 : i_move_l_wrapper A I32 R128 1 t1 = Ok (lsh 32 128 4 (p_move_l 4 1) [t1])) by (apply (i_move_l_wrapper_ok A I32 R128); auto; cbn; lia).
      assert (EL2 : lane 32 0 (lsh 32 128 4 (p_move_l 4 1) [t1]) = lane 32 1 t1).
      { change 0 with (4 * 0 + 0) at 1. rewrite lane_lsh by (try reflexivity; cbn; lia). reflexivity. }
      rewrite EM, EM2. cbn [bind]. rewrite EM3, E64. cbn [bind].
      rewrite !x32_ok by (first [lia | assumption | apply lsh_reg; reflexivity]). cbn [bind]. rewrite EL2, !EL1 by lia.
      replace (id * 2 + 0) with (id * 2) by lia. rewrite !lor_halves by lia.
      assert (EZ : id =? 0 = true -> lane 64 0 a = lane 64 id a) by (intros HZ; apply Z.eqb_eq in HZ; subst; reflexivity).
      clear EM EM2 EM3 E64 EL1 EL2 Ht1. clearbody t1.
      destruct (id =? 0); [rewrite EZ by reflexivity|]; fam HV; rw_flags; cbn [orb andb negb]; repeat split_if; cbn [bind]; rewrite ?lor_halves by lia; try reflexivity; vimp HV.
    - change (128 / 32) with 4 in Hid.
      match goal with |- context [Ok (lane 32 0 ?t)] => assert (lane 32 0 t = lane 32 id a) as EX end.
      { assert (id = 0 \/ id = 1 \/ id = 2 \/ id = 3) as HC by lia.
        assert (Hs : forall i, 0 <= i < 4 -> lane 32 0 (mm_shuffle_ps 128 (MM_SHUFFLE i i i i) a a) = lane 32 i a).
        { intros i Hi. unfold mm_shuffle_ps. change 0 with (4 * 0 + 0) at 1. rewrite lane_lsh by (try reflexivity; cbn; lia).
          assert (i = 0 \/ i = 1 \/ i = 2 \/ i = 3) as HI by lia. destruct HI as [-> | [-> | [-> | ->]]]; reflexivity. }
        destruct HC as [-> | [-> | [-> | ->]]]; cbn [Z.eqb Pos.eqb].
        - reflexivity.
        - destruct (use_sse3 A); [|apply Hs; lia]. change 0 with (2 * 0 + 0) at 1. rewrite lane_lsh by (try reflexivity; cbn; lia). reflexivity.
        - unfold mm_unpackhi. change 0 with (4 * 0 + 0) at 1. rewrite lane_lsh by (try reflexivity; cbn; lia). reflexivity.
        - apply Hs; lia. }
      rewrite EX. clear EX. unfold use_neon_no_flt_sp. fam HV; rw_flags; cbn [orb andb negb]; repeat split_if; try reflexivity; vimp HV.
    - change (128 / 64) with 2 in Hid.
      match goal with |- context [Ok (lane 64 0 ?t)] => assert (lane 64 0 t = lane 64 id a) as EX end.
      { assert (id = 0 \/ id = 1) as [-> | ->] by lia; cbn [Z.eqb]; [reflexivity|].
        unfold mm_unpackhi. change 0 with (2 * 0 + 0) at 1. rewrite lane_lsh by (try reflexivity; cbn; lia). reflexivity. }
      rewrite EX. clear EX. unfold use_neon32, use_neon64. fam HV; rw_flags; cbn [orb andb negb]; repeat split_if; try reflexivity; vimp HV.
  Qed.
End M.
