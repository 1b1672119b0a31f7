(** C20: byte shuffles. *)
From Verif Require Import Proof.ZBytesP.

Lemma legal_lt lim bits c : (forall x, 0 <= x < 256 -> implb (Z.ldiff x bits =? 0) (x <? lim) = true) ->
  0 <= c < 256 -> legal bits c -> c < lim.
Proof. intros H Hc HL. specialize (H c Hc). unfold legal in HL. rewrite HL in H. cbn in H. lia. Qed.
Lemma legal_z lim bits c : (forall x, 0 <= x < 256 -> implb (Z.ldiff x bits =? 0) ((x <? lim) || ((128 <=? x) && (x <? 128 + lim))) = true) ->
  0 <= c < 256 -> legal bits c -> c < lim \/ 128 <= c < 128 + lim.
Proof. intros H Hc HL. specialize (H c Hc). unfold legal in HL. rewrite HL in H. cbn [Z.eqb implb] in H. lia. Qed.
Definition lims (z : bool) (lim bits : Z) : bool :=
  forallb (fun x => implb (Z.ldiff x bits =? 0) (if z then (x <? lim) || ((128 <=? x) && (x <? 128 + lim)) else x <? lim)) (zrange 256).
Lemma legal_mk z lim bits s m : lims z lim bits = true ->
  Forall (legal bits) (elems 8 (nl 8 (rbits s)) m) -> mk_ok z (rbits s) lim m.
Proof.
  intros HL HF. pose proof (byte_all _ HL) as HB. cbv beta in HB.
  pose proof (Forall_elems 8 (rbits s) _ m (wok8 s) HF) as HE.
  destruct z; intros i Hi; specialize (HE i Hi); pose proof (lane_range 8 i m ltac:(lia)) as HR.
  - apply (legal_z lim bits); auto.
  - apply (legal_lt lim bits); auto.
Qed.
Lemma zbyte_sel s va vb vm j i : lims true 32 (Z.lor 128 31) = true -> length va = length vb ->
  (j < length va)%nat -> 0 <= i < rbits s / 8 -> (let c := lane 8 i (nth j vm 0) in c < 32 \/ 128 <= c < 160) ->
  zbyte (nth j va 0) (nth j vb 0) i (lane 8 i (nth j vm 0)) =
  byte_sel (lanes 8 s va) (lanes 8 s vb) (Z.of_nat j * (rbits s / 8) + i) (lane 8 i (nth j vm 0)).
Proof.
  intros _ HL Hj Hi Hc. cbv zeta in Hc. pose proof (lane_range 8 i (nth j vm 0) ltac:(lia)) as HR.
  revert Hc HR. generalize (lane 8 i (nth j vm 0)). intros c Hc HR. unfold zbyte, byte_sel.
  rewrite bit7_leb by (change 256 with (2 ^ 8); lia).
  destruct (Z.testbit c 7) eqn:E7; auto. rewrite <- bit7_leb in E7 by (change 256 with (2 ^ 8); lia).
  assert (Hc32 : 0 <= c < 32) by lia. rewrite bit4_leb by auto.
  assert (HD : exists q, rbits s / 8 = 16 * q /\ 0 < q) by (destruct s; [exists 1|exists 2|exists 4]; split; reflexivity).
  destruct HD as (q & Eq & Hq).
  assert (HX : (Z.of_nat j * (rbits s / 8) + i) / 16 = Z.of_nat j * q + i / 16).
  { rewrite Eq. replace (Z.of_nat j * (16 * q) + i) with (i + Z.of_nat j * q * 16) by ring. rewrite Z.div_add by lia. lia. }
  assert (Hi16 : 0 <= i / 16 < q) by (split; [apply Z.div_pos; lia|apply Z.div_lt_upper_bound; lia]).
  rewrite HX.
  assert (HN : forall v r, 0 <= r < 16 -> nth (Z.to_nat (16 * (Z.of_nat j * q + i / 16) + r)) (lanes 8 s v) 0 = lane 8 (16 * (i / 16) + r) (nth j v 0)).
  { intros v r Hr. assert (0 <= Z.of_nat j * q) by (apply Z.mul_nonneg_nonneg; lia).
    assert (0 <= 16 * (Z.of_nat j * q + i / 16) + r) by lia. rewrite nth_lanes by (auto using wok8). rewrite Eq.
    replace (16 * (Z.of_nat j * q + i / 16) + r) with ((16 * (i / 16) + r) + Z.of_nat j * (16 * q)) by ring.
    assert (0 <= 16 * (i / 16) + r < 16 * q) by nia.
    rewrite Z.mod_add, Z.div_add by lia. rewrite (Z.mod_small _ (16 * q)), (Z.div_small _ (16 * q)) by lia.
    rewrite Z.add_0_l, Nat2Z.id. reflexivity. }
  destruct (Z.ltb_spec c 16), (Z.leb_spec 16 c); try lia.
  - rewrite Z.mod_small by lia. rewrite HN by lia. reflexivity.
  - replace (c mod 16) with (c - 16) by (apply (Z.mod_unique _ _ 1); lia). rewrite HN by lia. reflexivity.
Qed.

Fixpoint zmap3 (f : Z -> Z -> Z -> Z) (a b c : vec) : vec :=
  match a, b, c with x :: a, y :: b, z :: c => f x y z :: zmap3 f a b c | _, _, _ => [] end.
Lemma zmap3_length f a b c : length a = length b -> length a = length c -> length (zmap3 f a b c) = length a.
Proof. revert b c. induction a; destruct b, c; cbn; intros; try lia. rewrite IHa; lia. Qed.
Lemma nth_zmap3 f a b c j : length a = length b -> length a = length c -> (j < length a)%nat ->
  nth j (zmap3 f a b c) 0 = f (nth j a 0) (nth j b 0) (nth j c 0).
Proof. revert b c j. induction a; destruct b, c, j; cbn; intros; try lia; auto. apply IHa; lia. Qed.

Theorem lift_bytes s bits z lim op : lims z lim bits = true -> lim <= 32 ->
  (forall a b m, reg (rbits s) a -> reg (rbits s) b -> reg (rbits s) m -> mk_ok z (rbits s) lim m -> op a b m = Ok (zb (rbits s) a b m)) ->
  selects s bits (vec_impl3 op).
Proof.
  intros HL Hlim Hop va vb vm Ha Hb Hm L1 L2 HF.
  assert (HM : Forall (mk_ok z (rbits s) lim) vm).
  { clear -HF HL. induction vm as [|m vm IH]; constructor.
    - rewrite lanes_cons in HF. apply Forall_app in HF as [HF _]. eapply legal_mk; eauto.
    - rewrite lanes_cons in HF. apply Forall_app in HF as [_ HF]. auto. }
  exists (zmap3 (zb (rbits s)) va vb vm). split; [|split; [|split]].
  - clear HF. revert vb vm Hb Hm L1 L2 HM. induction va as [|a va IH]; intros [|b vb] [|m vm] Hb Hm L1 L2 HM; try discriminate; auto.
    cbn [vec_impl3 zmap3]. apply wfv_cons in Ha as [Ha1 Ha]. apply wfv_cons in Hb as [Hb1 Hb]. apply wfv_cons in Hm as [Hm1 Hm].
    inversion HM; subst. rewrite Hop by auto. cbn [bind]. cbn in L1, L2. rewrite IH by (auto; lia). reflexivity.
  - clear. unfold wfv. revert vb vm. induction va; destruct vb, vm; cbn; constructor; auto. unfold zb. apply pack_reg, wok8.
  - apply zmap3_length; auto.
  - intros q Hq. rewrite lanes_length in Hq.
    assert (EN : Z.of_nat (nl 8 (rbits s)) = rbits s / 8) by (destruct s; reflexivity).
    assert (HN0 : 0 < rbits s / 8) by (destruct s; reflexivity).
    rewrite !nth_lanes by (auto using wok8; lia).
    set (N := rbits s / 8) in *. set (j := Z.to_nat (q / N)).
    pose proof (Z.mod_pos_bound q N HN0) as HB. pose proof (Z.div_mod q N ltac:(lia)) as HD.
    assert (0 <= q / N) by (apply Z.div_pos; lia).
    assert (Hj : (j < length va)%nat) by (unfold j; assert (q / N < Z.of_nat (length va)) by (apply Z.div_lt_upper_bound; nia); lia).
    rewrite nth_zmap3 by auto. unfold zb. fold N. rewrite lane_pack by (auto using wok8). rewrite wrap_zbyte.
    assert (Eq : q = Z.of_nat j * (rbits s / 8) + q mod N) by (unfold j; fold N; rewrite Z2Nat.id by lia; lia).
    rewrite Eq at 3. apply zbyte_sel; auto.
    rewrite Forall_forall in HM. specialize (HM (nth j vm 0) ltac:(apply nth_In; lia)).
    pose proof (mk_ok_z _ _ _ _ HM (q mod N) HB) as HZ. cbv zeta in *. lia.
Qed.
Lemma impl2_as3 f va vb vm : length va = length vb ->
  vec_impl2 f va vm = vec_impl3 (fun a b m => f a m) va vb vm.
Proof.
  revert vb vm. induction va as [|a va IH]; intros [|b vb] [|m vm] HL; try discriminate; auto.
  cbn [vec_impl2 vec_impl3]. rewrite (IH vb) by (cbn in HL; lia). reflexivity.
Qed.

(** Every element type: some type has registers of size s *)
Definition some_reg A s := exists w, avail_int A w s = true \/ avail_flt A s = true.

Theorem permute_bytes16_spec : forall A s, valid_arch A = true -> some_reg A s -> has_permute_bytes A = true ->
  selects s 0x0f (fun va vb vm => permute_bytes16 A s va vm).
Proof.
  intros A s HV HS HB va vb vm Ha Hb Hm L1 L2. unfold permute_bytes16. rewrite (impl2_as3 _ va vb vm L1).
  revert va vb vm Ha Hb Hm L1 L2. apply (lift_bytes s 0x0f false 16); [vm_compute; reflexivity|lia|].
  intros a b m Ha Hb Hm HM. rewrite (as2_ok A s _ false 16); auto; [|intros; apply i_permute_bytes16_ok; auto|lia].
  f_equal. unfold zb. apply pack_ext; [apply wok8|]. intros i Hi. specialize (HM i Hi). unfold zbyte.
  destruct (Z.ltb_spec (lane 8 i m) 16); auto; lia.
Qed.
Theorem permute_zbytes16_spec : forall A s, valid_arch A = true -> some_reg A s -> has_permute_bytes A = true ->
  selects s 0x8f (fun va vb vm => permute_zbytes16 A s va vm).
Proof.
  intros A s HV HS HB va vb vm Ha Hb Hm L1 L2. unfold permute_zbytes16. rewrite (impl2_as3 _ va vb vm L1).
  revert va vb vm Ha Hb Hm L1 L2. apply (lift_bytes s 0x8f true 16); [vm_compute; reflexivity|lia|].
  intros a b m Ha Hb Hm HM. rewrite (as2_ok A s _ true 16); auto; [|intros; apply i_permute_zbytes16_ok; auto|lia].
  f_equal. unfold zb. apply pack_ext; [apply wok8|]. intros i Hi. specialize (HM i Hi). cbv zeta in HM. unfold zbyte.
  destruct (Z.leb_spec 128 (lane 8 i m)); auto.
  destruct (Z.ltb_spec (lane 8 i m) 16); auto; lia.
Qed.
Theorem shuffle_bytes16_spec : forall A s, valid_arch A = true -> some_reg A s -> has_shuffle_bytes A = true ->
  selects s 0x1f (shuffle_bytes16 A s).
Proof.
  intros A s HV HS HB. apply (lift_bytes s 0x1f false 32); [vm_compute; reflexivity|lia|].
  intros a b m Ha Hb Hm HM. apply (as3_ok A s _ false 32); auto; [|lia]. intros; apply i_shuffle_bytes16_ok; auto.
Qed.
Theorem shuffle_zbytes16_spec : forall A s, valid_arch A = true -> some_reg A s -> has_shuffle_bytes A = true ->
  selects s 0x9f (shuffle_zbytes16 A s).
Proof.
  intros A s HV HS HB. apply (lift_bytes s 0x9f true 32); [vm_compute; reflexivity|lia|].
  intros a b m Ha Hb Hm HM. apply (as3_ok A s _ true 32); auto; [|lia]. intros; apply i_shuffle_zbytes16_ok; auto.
Qed.
(** With SSE2 but not SSSE3 the operations do not exist. *)
Theorem byte_shuffles_sse2_refuted : exists a m,
  permute_bytes16 arch_sse2 R128 [a] [m] = NotImpl /\ permute_zbytes16 arch_sse2 R128 [a] [m] = NotImpl /\
  shuffle_zbytes16 arch_sse2 R128 [a] [a] [m] = NotImpl.
Proof. exists 1, 0. repeat split; vm_compute; reflexivity. Qed.
(** non-trivial cases *)
Example bytes_case :
  permute_zbytes16 arch_altivec R128 [0x0f0e0d0c0b0a09080706050403020110] [0x808080808080808080808080800f0300] =
    Ok [0x0f0310] /\
  shuffle_zbytes16 arch_ssse3 R128 [0x0f0e0d0c0b0a09080706050403020110] [0xff] [0x8080808080808080808080808010800f] =
    Ok [0xff000f] /\
  shuffle_bytes16 arch_avx R256 [0xaabb] [0xcc] [0x1001] = Ok [0xbbbbbbbbbbbbbbbbbbbbbbbbbbbbccaa].
Proof. split; [|split]; vm_compute; reflexivity. Qed.
