(** C39: load_splat. *)
From Verif Require Import Model.LoadSplat Proof.LoadStoreP4 Proof.PackedP3 Thm.T_Const Thm.T_Memory Thm.T_Packed.

Section P.
  Variables (A : arch) (junk p : Z) (m : mem) (e : et).
  Notation w := (eb e).
  Hypotheses (HV : valid_arch A = true) (Hj : reg 128 junk) (Hp : aligned (w / 8) p = true) (Ha : accessible m p (w / 8)).
  Notation x := (view w p m).
  Lemma wb8 : 0 < w /\ 0 < w / 8 /\ w = 8 * (w / 8). Proof. destruct e; repeat split; reflexivity. Qed.
  Lemma x_range : 0 <= x < 2 ^ w.
  Proof. apply view_reg. destruct e; reflexivity. Qed.
  Lemma x_wrap : wrap w x = x. Proof. apply wrap_small, x_range. Qed.
  Lemma rd_x : rd w p m = Ok x. Proof. apply rd_ok; [pose proof wb8; lia|exact Ha]. Qed.
  Lemma ld_x : ld_el w p m = Ok x. Proof. unfold ld_el. rewrite Hp. exact rd_x. Qed.
  Lemma load1_u_ok : exists r, load1_u junk p m w = Ok r /\ reg 128 r /\ lane w 0 r = x.
  Proof.
    unfold load1_u. rewrite ld_x. cbn [bind]. eexists. split; [reflexivity|]. split; [apply v1_reg; reflexivity|].
    destruct wb8 as (Hw & Hb & E8). set (k := w / 8) in *.
    assert (p mod 16 mod k = 0 /\ 16 = 128 / w * k) as [M E16].
    { assert (16 = 128 / w * k) as E16 by (unfold k; destruct e; reflexivity). split; [|exact E16].
      rewrite E16. rewrite Z.mul_comm, Z.rem_mul_r by (try lia; destruct e; cbn; lia).
      rewrite Z.mul_comm, Z.mod_add by lia. rewrite Z.mod_mod by lia. apply Z.eqb_eq, Hp. }
    set (o := p mod 16) in *. pose proof (Z.mod_pos_bound p 16 ltac:(lia)) as Ho. fold o in Ho.
    pose proof (Z.div_mod o k ltac:(lia)) as D. assert (0 <= o / k < 128 / w) as Q.
    { split; [apply Z.div_pos; lia|apply Z.div_lt_upper_bound; lia]. }
    apply (reg_lanes 8 w); [destruct e; reflexivity|apply lane_range; lia|apply x_range|].
    assert (k <= 16) as Hk16 by (unfold k; destruct e; vm_compute; discriminate).
    intros i Hi. fold k in Hi. replace (lane w 0) with (lane (8 * k) 0) by (rewrite <- E8; reflexivity).
    rewrite (lane_lane 8 k) by lia. change (0 * k + i) with i.
    unfold vec_lvsl. fold o. rewrite lane_perm by (intros; lia).
    replace (o + i <? 16) with true by (symmetry; apply Z.ltb_lt; nia).
    rewrite (lane_sub 8 k (o + i)) by lia.
    assert ((o + i) / k = o / k /\ (o + i) mod k = i) as [-> ->].
    { assert (o + i = k * (o / k) + i) as EE by lia. rewrite EE. rewrite grp_div, grp_mod by lia. auto. }
    rewrite <- E8. rewrite lane_pack by (auto using wok128). rewrite Z.eqb_refl, x_wrap. reflexivity.
  Qed.
  Lemma av_ok : (let* v := load1_u junk p m w in i_splat_n A e R128 0 v) = Ok (splat w 128 x).
  Proof.
    destruct load1_u_ok as (r & E & Hr & HL). rewrite E. cbn [bind]. rewrite splat_n0_128 by auto. rewrite HL. reflexivity.
  Qed.
  Lemma loadu_ok : (accessible m p 16) -> vmx A e = false ->
    (let* v := i_load_u A e R128 p m in i_splat_n A e R128 0 v) = Ok (splat w 128 x).
  Proof.
    intros H16 Hvmx. rewrite (i_load_u_ok A HV e R128 p m).
    - cbn [bind]. rewrite splat_n0_128 by (auto; apply view_reg; reflexivity). apply f_equal. f_equal.
      rewrite lane_view by (auto using wok128, wok8e; destruct e; cbn; lia).
      transitivity (lane w 0 (view w p m)); [|rewrite lane_0 by (pose proof wb8; lia); apply x_wrap].
      rewrite (lane_view w w); auto using wok8e; destruct e; try reflexivity; split; reflexivity || discriminate.
    - destruct e; reflexivity.
    - split; [apply Z.eqb_eq, Hp|exact H16].
    - rewrite Hvmx. discriminate.
  Qed.

  Lemma bcast_ok R : wok w R = true -> ls_bcast p m w R = Ok (splat w R x).
  Proof. intros W. unfold ls_bcast. rewrite rd_x. cbn [bind]. unfold mm_broadcast. rewrite lane_0 by (pose proof wb8; lia). rewrite x_wrap. reflexivity. Qed.
  Lemma set_ok s : avail_et A e s = true -> splat_def A e s x -> ls_set A junk p m e s = Ok (splat w (rbits s) x).
  Proof. intros HA HD. unfold ls_set. rewrite ld_x. cbn [bind]. apply i_set_splat_ok; auto using x_range. Qed.
  Lemma dup_ok : ls_dup p m w = Ok (splat w 128 x).
  Proof. unfold ls_dup. rewrite ld_x. reflexivity. Qed.
  Lemma nullv_ok : ls_null p m w = Ok (splat w 128 x).
  Proof. unfold ls_null. rewrite ld_x. reflexivity. Qed.
  Lemma p4_ok y : e = I32 \/ e = F32 -> reg 128 y -> lane 32 0 y = x -> i_permute4 A e R128 0 0 0 0 y = Ok (splat w 128 x).
  Proof.
    intros HE Hy HL. rewrite i_permute4_ok by (auto; first [lia | destruct e; reflexivity | tauto]). apply f_equal.
    pose proof x_wrap as HW.
    destruct HE as [HE | HE]; rewrite HE in *; cbn [eb rbits] in *; (apply (reg_lanes 32 128); [reflexivity|apply lsh_reg; reflexivity|apply splat_reg; reflexivity|]);
      intros i Hi; change (128 / 32) with 4 in Hi; rewrite lane_splat_g by (auto; reflexivity); replace i with (4 * 0 + i) at 1 by lia;
      rewrite lane_lsh by (first [reflexivity | cbn; lia]);
      assert (p_permute4 0 0 0 0 i = fromA 0) as -> by (assert (i = 0 \/ i = 1 \/ i = 2 \/ i = 3) as [-> | [-> | [-> | ->]]] by lia; reflexivity);
      cbn [nth]; change (4 * 0 + 0) with 0; rewrite HL; symmetry; exact HW.
  Qed.
  Lemma p2_ok : e = I64 \/ e = F64 -> i_permute2 A e R128 0 0 x = Ok (splat w 128 x).
  Proof.
    intros HE. assert (reg 128 x) as Hx.
    { pose proof x_range as H. unfold reg. destruct HE as [HE | HE]; rewrite HE in *; cbn [eb] in *; lia. }
    rewrite i_permute2_ok by (auto; first [lia | destruct e; reflexivity | destruct HE as [-> | ->]; discriminate]). apply f_equal.
    pose proof x_wrap as HW.
    destruct HE as [HE | HE]; rewrite HE in *; cbn [eb rbits] in *; (apply (reg_lanes 64 128); [reflexivity|apply lsh_reg; reflexivity|apply splat_reg; reflexivity|]);
      intros i Hi; change (128 / 64) with 2 in Hi; rewrite lane_splat_g by (auto; reflexivity); replace i with (2 * 0 + i) at 1 by lia;
      rewrite lane_lsh by (first [reflexivity | cbn; lia]);
      assert (p_permute2 0 0 i = fromA 0) as -> by (assert (i = 0 \/ i = 1) as [-> | ->] by lia; reflexivity);
      cbn [nth]; change (2 * 0 + 0) with 0; apply lane_0; lia.
  Qed.
  Definition vsx64 : bool := (use_vsx207 A && match e with I64 => true | _ => false end) || (use_vsx206 A && match e with F64 => true | _ => false end).
  Lemma load_splat128_ok : splat_def A e R128 x -> (vsx64 = true -> accessible m p 16) ->
    load_splat128 A junk p m e = Ok (splat w 128 x).
  Proof.
    intros HD HX. unfold load_splat128.
    pose proof av_ok as E1. pose proof loadu_ok as E2. pose proof (bcast_ok 128 (wok128 e)) as E3. pose proof (set_ok R128 ltac:(destruct e; reflexivity) HD) as E4.
    pose proof dup_ok as E5. pose proof nullv_ok as E6. pose proof p4_ok as E7. pose proof p2_ok as E8. pose proof ld_x as E9. pose proof rd_x as E10.
    pose proof x_range as XR. pose proof x_wrap as XW. pose proof lane_0 w x as L0.
    unfold vsx64, vmx in *. cbv zeta.
    destruct e; cbn [eb rbits] in *; rewrite ?E1, ?E3, ?E4, ?E5, ?E6, ?E9, ?E10; clear E1 E3 E4 E5 E6 E9 E10; cbn [bind]; cbn [andb orb] in *.
    - fam HV; rw_flags; cbn [orb andb negb]; repeat split_if; try reflexivity; vimp HV.
    - fam HV; rw_flags; cbn [orb andb negb]; repeat split_if; try reflexivity; vimp HV.
    - assert (i_permute4 A I32 R128 0 0 0 0 (mm_cvtsi32 (view 32 p m)) = Ok (splat 32 128 (view 32 p m))) as E.
      { unfold mm_cvtsi32. rewrite XW. apply E7; [left; reflexivity|unfold reg; lia|rewrite lane_0 by lia; exact XW]. }
      rewrite E. clear E E2 E7 E8 HX. fam HV; rw_flags; cbn [orb andb negb]; repeat split_if; try reflexivity; vimp HV.
    - rewrite E8 by (left; reflexivity). clear E7 E8.
      assert (use_vsx207 A = true -> (let* v := i_load_u A I64 R128 p m in i_splat_n A I64 R128 0 v) = Ok (splat 64 128 (view 64 p m))) as E.
      { intros HF. apply E2; [apply HX; rewrite HF; reflexivity|apply andb_false_r]. }
      clear E2 HX. fam HV; rw_flags; cbn [orb andb negb]; repeat split_if; try reflexivity; try (apply E; first [assumption | reflexivity]); vimp HV.
    - assert (i_permute4 A F32 R128 0 0 0 0 (view 32 p m) = Ok (splat 32 128 (view 32 p m))) as E.
      { apply E7; [right; reflexivity|unfold reg; lia|rewrite lane_0 by lia; exact XW]. }
      rewrite E. clear E E2 E7 E8 HX. unfold use_neon_no_flt_sp. fam HV; rw_flags; cbn [orb andb negb]; repeat split_if; try reflexivity; vimp HV.
    - rewrite E8 by (right; reflexivity). clear E7 E8.
      assert (use_vsx206 A = true -> (let* v := i_load_u A F64 R128 p m in i_splat_n A F64 R128 0 v) = Ok (splat 64 128 (view 64 p m))) as E.
      { intros HF. apply E2; [apply HX; rewrite HF; apply orb_true_r|apply andb_false_r]. }
      clear E2 HX. unfold use_neon64. fam HV; rw_flags; cbn [orb andb negb]; repeat split_if; try reflexivity; try (apply E; first [assumption | reflexivity]); vimp HV.
  Qed.
  Lemma i_load_splat_ok s : avail_et A e s = true -> splat_def A e s x -> (s = R128 -> vsx64 = true -> accessible m p 16) ->
    i_load_splat A junk p m e s = Ok (splat w (rbits s) x).
  Proof.
    intros HA HD HX. unfold i_load_splat. pose proof (set_ok s HA HD) as E1. pose proof (bcast_ok (rbits s) (wokR e s)) as E2.
    destruct s; [apply load_splat128_ok; auto| |]; unfold if_wide; rewrite HA; destruct e; assumption.
  Qed.
End P.

Lemma splat_rep e s n v : lanes (eb e) s (repeat (splat (eb e) (rbits s) v) n) = repeat (v mod 2 ^ eb e) (n * nl (eb e) (rbits s)).
Proof.
  induction n as [|n IH]; [reflexivity|]. cbn [repeat Nat.mul]. rewrite repeat_app, <- IH.
  change (lanes (eb e) s (?a :: ?v)) with (elems (eb e) (nl (eb e) (rbits s)) a ++ lanes (eb e) s v). f_equal.
  unfold elems. pose proof (wok_et e s) as HW. destruct (wok_spec _ _ HW) as (Hw & HR & E & En).
  transitivity (map (fun _ : nat => v mod 2 ^ eb e) (seq 0 (nl (eb e) (rbits s)))).
  + apply map_ext_in. intros i Hi. apply in_seq in Hi. apply lane_splat_g; auto. lia.
  + generalize 0%nat. generalize (nl (eb e) (rbits s)). intros k. induction k as [|k IHk]; intros b; [reflexivity|].
    cbn [seq map repeat]. f_equal. apply IHk.
Qed.
(** load_splat(p): every element is the element at p, which must be aligned like one; no other
    byte needs to be accessible.  Missing from the full statement: 8-bit values from 128 on for
    x86 before AVX2 (signed overflow, see splat_u8_refuted), and 64-bit elements on VSX when the
    16 bytes at p are not accessible (load_splat_refuted). *)
Theorem load_splat_partial : forall A e s n junk p m, valid_arch A = true -> avail_et A e s = true -> reg 128 junk ->
  p mod (eb e / 8) = 0 -> accessible m p (eb e / 8) ->
  (e = I8 -> s = R128 -> use_sse2 A = true -> use_avx2 A = false -> number 1 m p < 128) ->
  (e = I64 \/ e = F64 -> s = R128 -> use_vsx206 A = true -> accessible m p 16) ->
  splat_result e s n (number (Z.to_nat (eb e / 8)) m p) (load_splat A junk p m e s n).
Proof.
  intros A e s n junk p m HV HA Hj Hp Ha H8 H16.
  assert (view (eb e) p m = number (Z.to_nat (eb e / 8)) m p) as EV.
  { transitivity (lane (eb e) 0 (view (eb e) p m)).
    - rewrite lane_0 by (destruct e; cbn; lia). symmetry. apply wrap_small, view_reg. destruct e; reflexivity.
    - rewrite (lane_view (eb e) (eb e)); auto using wok8e; destruct e; try reflexivity; try (split; [discriminate|reflexivity]); do 2 f_equal; lia. }
  unfold load_splat. rewrite i_load_splat_ok; auto.
  - cbn [bind]. rewrite EV. eexists. split; [reflexivity|]. split; [|split; [apply repeat_length|apply splat_rep]].
    apply Forall_forall. intros r Hr. apply repeat_spec in Hr. subst. apply splat_reg, wok_et.
  - apply Z.eqb_eq, Hp.
  - intros H1 H2 H3 H4. rewrite EV. subst e. apply H8; auto.
  - intros Hs HF. apply H16; auto.
    + unfold vsx64 in HF. destruct e; auto; rewrite !andb_false_r in HF; discriminate.
    + unfold vsx64 in HF. destruct (use_vsx206 A) eqn:E6; [reflexivity|]. exfalso.
      destruct (use_vsx207 A) eqn:E7; [|discriminate]. clear - HV E6 E7. vimp HV.
Qed.
(** Finding: load_u reads a whole register where only an element is at p. *)
Theorem load_splat_refuted : forall n, exists m, accessible m 64 8 /\
  load_splat arch_vsx207 0 64 m I64 R128 n = UB /\ load_splat arch_vsx207 0 64 m F64 R128 n = UB /\
  load_splat arch_altivec 0 64 m I64 R128 1 = Ok [0x07060504030201000706050403020100].
Proof.
  intros n. exists (ramp 64 8). split; [apply ramp_acc|]. split; [vm_compute; reflexivity|]. split; vm_compute; reflexivity.
Qed.
Example load_splat_case :
  load_splat arch_altivec 0xabcdef 70 (ramp 70 2) I16 R128 2 = Ok [0x01000100010001000100010001000100; 0x01000100010001000100010001000100] /\
  load_splat arch_avx2 0 65 (ramp 65 1) I8 R256 1 = Ok [0] /\
  load_splat arch_neon64 0 68 (ramp 64 8) F32 R128 1 = Ok [0x07060504070605040706050407060504].
Proof. split; [|split]; vm_compute; reflexivity. Qed.
