(** test_bits_any *)
From Verif Require Import Spec.BitTest Model.BitTest Proof.CppLemmas Proof.BitwiseP Proof.MakeConstP Proof.MoveP Proof.UnzipP Proof.ExtractP Proof.ExtractP2 Proof.FloatsP Proof.ShiftP
  Proof.PopcntP Proof.ReduceP Proof.ReduceP6 Proof.ReduceMulP.

Lemma zrange_in n k : In k (zrange n) -> 0 <= k < n.
Proof. unfold zrange. rewrite in_map_iff. intros (j & <- & H). apply in_seq in H. lia. Qed.
Lemma existsb_ext {X} (f g : X -> bool) l : (forall x, f x = g x) -> existsb f l = existsb g l.
Proof. intros H. induction l as [|x l IH]; [reflexivity|]. cbn [existsb]. rewrite H, IH. reflexivity. Qed.
Lemma testbit_kmask' w R p k : wok w R = true -> 0 <= k -> Z.testbit (kmask w R p) k = (k <? R / w) && p k.
Proof.
  intros HW Hk. destruct (wok_spec w R HW) as (_ & _ & _ & Hn). unfold kmask. rewrite testbit_mk by lia. rewrite Z.mul_1_l, Hn, Z.div_1_r.
  rewrite Z.mod_1_r. destruct (p k); reflexivity.
Qed.
Lemma kmask_zero w R p : wok w R = true -> (kmask w R p =? 0) = negb (existsb p (zrange (R / w))).
Proof.
  intros HW. destruct (existsb p (zrange (R / w))) eqn:E.
  - apply existsb_exists in E as (i & Hi & Hp). apply zrange_in in Hi. apply Z.eqb_neq. intros H.
    pose proof (testbit_kmask' w R p i HW ltac:(lia)) as T. rewrite H, Z.bits_0, Hp in T. destruct (i <? R / w) eqn:L; [discriminate T|]. apply Z.ltb_ge in L. lia.
  - apply Z.eqb_eq. apply Z.bits_inj_0. intros i. destruct (Z_lt_dec i 0); [apply Z.testbit_neg_r; auto|]. rewrite testbit_kmask' by (auto; lia).
    destruct (i <? R / w) eqn:L; [|reflexivity]. cbn [andb]. destruct (p i) eqn:Hp; auto. rewrite <- E. symmetry. apply existsb_exists. exists i. split; auto.
    apply in_zrange. apply Z.ltb_lt in L. lia.
Qed.
Lemma zero_lanes w R a : wok w R = true -> reg R a -> negb (a =? 0) = existsb (fun i => negb (lane w i a =? 0)) (zrange (R / w)).
Proof.
  intros HW Ha. destruct (existsb _ _) eqn:E.
  - apply existsb_exists in E as (i & Hi & Hp). apply Bool.negb_true_iff, Z.eqb_neq. intros ->. rewrite lane_of_zero in Hp. discriminate Hp.
  - apply Bool.negb_false_iff, Z.eqb_eq. apply (reg_lanes w R); auto; [destruct (wok_spec w R HW); unfold reg; split; [lia|apply pow2_pos; lia]|].
    intros i Hi. rewrite lane_of_zero. destruct (lane w i a =? 0) eqn:L; [apply Z.eqb_eq; auto|].
    assert (X : existsb (fun i => negb (lane w i a =? 0)) (zrange (R / w)) = true) by (apply existsb_exists; exists i; split; [apply in_zrange; lia|rewrite L; reflexivity]).
    rewrite X in E. discriminate E.
Qed.
Lemma fold_lor_zero (f : Z -> Z) l r : negb (fold_left (fun r i => Z.lor r (f i)) l r =? 0) = negb (r =? 0) || existsb (fun i => negb (f i =? 0)) l.
Proof.
  revert r. induction l as [|x l IH]; intros r; cbn [fold_left existsb]; [rewrite Bool.orb_false_r; reflexivity|].
  rewrite IH, Bool.orb_assoc. f_equal. destruct (r =? 0) eqn:E1; [apply Z.eqb_eq in E1; subst r; rewrite Z.lor_0_l; reflexivity|].
  apply Bool.negb_true_iff, Z.eqb_neq. apply Z.eqb_neq in E1. intros H. apply Z.lor_eq_0_iff in H. lia.
Qed.
Section L.
  Variables (A : arch) (fp : Z).
  Hypotheses (HV : valid_arch A = true) (Hfp : fp mod 64 = 0).
  Local Notation F16 := (fp16 fp Hfp).
  Local Notation nz a := (negb (a =? 0)).
  Lemma testz_ok a : negb (mm_testz a a) = nz a.
  Proof. unfold mm_testz. rewrite Z.land_diag. reflexivity. Qed.
  Lemma null_test_ok w a : wok w 128 = true -> reg 128 a -> null_test_bits_any w a = nz a.
  Proof. intros HW Ha. unfold null_test_bits_any. rewrite fold_lor_zero. cbn [Z.eqb negb orb]. symmetry. apply zero_lanes; auto. Qed.
  Lemma any_gt_ok w a : wok w 128 = true -> reg 128 a -> vec_any_gt_u w a 0 = nz a.
  Proof.
    intros HW Ha. unfold vec_any_gt_u. rewrite (zero_lanes w 128) by auto. apply existsb_ext. intros i. rewrite lane_of_zero.
    destruct (wok_spec w 128 HW) as (Hw & _). pose proof (lane_range w i a ltac:(lia)). destruct (lane w i a =? 0) eqn:E; [apply Z.eqb_eq in E; rewrite E; reflexivity|].
    apply Z.eqb_neq in E. cbn. apply Z.ltb_lt. lia.
  Qed.
  Lemma test_mask_ok a : reg 512 a -> negb (mm_test_mask 64 512 a a =? 0) = nz a.
  Proof.
    intros Ha. unfold mm_test_mask. rewrite kmask_zero by reflexivity. rewrite Bool.negb_involutive, (zero_lanes 64 512) by auto.
    apply existsb_ext. intros i. rewrite Z.land_diag. reflexivity.
  Qed.
  Lemma sse2_test_ok a : reg 128 a -> negb (mm_movemask 8 128 (mm_cmpeq 32 128 a 0) =? 0xffff) = nz a.
  Proof.
    intros Ha. rewrite (zero_lanes 32 128) by auto.
    assert (B : forall i, 0 <= i < 16 -> Z.testbit (mm_movemask 8 128 (mm_cmpeq 32 128 a 0)) i = (lane 32 (i / 4) a =? 0)).
    { intros i Hi. unfold mm_movemask. rewrite MaskP.testbit_kmask by (try reflexivity; change (128 / 8) with 16; lia).
      rewrite (lane_sub 8 4 i) by lia. change (8 * 4) with 32. unfold mm_cmpeq.
      assert (0 <= i / 4 < 4) by zl. assert (0 <= i mod 4 < 4) by zl. rewrite lane_v2 by (try reflexivity; change (128 / 32) with 4; lia).
      rewrite lane_of_zero, wrap_tf by lia. rewrite (BlendP.lane8_tf 4) by lia. destruct (lane 32 (i / 4) a =? 0); reflexivity. }
    assert (RG : 0 <= mm_movemask 8 128 (mm_cmpeq 32 128 a 0) < 2 ^ 16) by (unfold mm_movemask, kmask; apply mk_range; lia).
    destruct (existsb _ _) eqn:E.
    - apply existsb_exists in E as (i & Hi & Hp). apply zrange_in in Hi. apply Bool.negb_true_iff, Z.eqb_neq. intros H.
      pose proof (B (4 * i) ltac:(change (128 / 32) with 4 in Hi; lia)) as T. rewrite H in T. replace (4 * i / 4) with i in T by zl.
      destruct (lane 32 i a =? 0); [discriminate Hp|]. change (128 / 32) with 4 in Hi. assert (C : i = 0 \/ i = 1 \/ i = 2 \/ i = 3) by lia. destruct C as [-> |[-> |[-> | ->]]]; discriminate T.
    - apply Bool.negb_false_iff, Z.eqb_eq. apply (bits_ext 16); [lia|exact RG|split; [lia|reflexivity]|]. intros i Hi. rewrite B by lia.
      change 0xffff with (ones 16). rewrite testbit_ones by lia. destruct (Z.ltb_spec i 16); [|lia].
      destruct (lane 32 (i / 4) a =? 0) eqn:L; [reflexivity|]. rewrite <- E. apply existsb_exists. exists (i / 4). split; [apply in_zrange; change (128 / 32) with 4; zl|rewrite L; reflexivity].
  Qed.
  Lemma ext_l e id a : avail_et A e R128 = true -> reg 128 a -> 0 <= id < 128 / eb e -> i_extract A fp false e R128 id a = Ok (lane (eb e) id a).
  Proof. intros HA Ha Hid. rewrite (i_extract_ok A fp HV R128 F16 false e id a HA Ha Hid) by (intros X; discriminate X). reflexivity. Qed.
  Lemma nz_or a b : negb (Z.lor a b =? 0) = negb (a =? 0) || negb (b =? 0).
  Proof.
    destruct (Z.eqb_spec (Z.lor a b) 0) as [E|E].
    - apply Z.lor_eq_0_iff in E as [-> ->]. reflexivity.
    - destruct (Z.eqb_spec a 0) as [->|]; [|reflexivity]. rewrite Z.lor_0_l in E. destruct (Z.eqb_spec b 0); [contradiction|reflexivity].
  Qed.
  Lemma neon_test64 a : use_neon A = true -> reg 128 a ->
    (let* m := i_move_l A I64 R128 1 a in let* r := i_bit_or A W64 R128 a m in
     let* x := i_extract A fp false I64 R128 0 r in Ok (negb (x =? 0))) = Ok (nz a).
  Proof.
    intros HN Ha. rewrite i_move_l_ok by (auto; try reflexivity; cbn; lia). cbn [bind eb en rbits].
    assert (Hm : reg 128 (lsh 64 128 2 (p_move_l 2 1) [a])) by (apply lsh_reg; reflexivity).
    rewrite i_bit_or_ok by (auto; reflexivity). cbn [bind]. rewrite ext_l; [|reflexivity|apply lor_reg; auto; lia|split; [lia|reflexivity]].
    cbn [bind eb]. f_equal. rewrite lane_lor by lia. rewrite nz_or. pose proof (lane_lsh 64 128 2 (p_move_l 2 1) [a] 0 0 eq_refl ltac:(lia) ltac:(split; [lia|reflexivity])) as E.
    change (2 * 0 + 0) with 0 in E. change (en I64) with 2. rewrite E. change (p_move_l 2 1 0) with (Some (0%nat, 1)). cbn [nth]. change (2 * 0 + 1) with 1.
    rewrite (zero_lanes 64 128 a) by auto. change (zrange (128 / 64)) with [0; 1]. cbn [existsb]. rewrite Bool.orb_false_r. reflexivity.
  Qed.
  Lemma neon_test32 a : use_neon A = true -> reg 128 a ->
    (let* m := i_move_l A I32 R128 2 a in let* r := i_bit_or A W32 R128 a m in
     let* m := i_move_l A I32 R128 1 r in let* r := i_bit_or A W32 R128 r m in
     let* x := i_extract A fp false I32 R128 0 r in Ok (negb (x =? 0))) = Ok (nz a).
  Proof.
    intros HN Ha. destruct (move_word A HV R128 2 a eq_refl Ha ltac:(lia)) as (m & -> & Hm & Lm). cbn [bind].
    rewrite i_bit_or_ok by (auto; reflexivity). cbn [bind rbits] in *.
    assert (Hr : reg 128 (Z.lor a m)) by (apply lor_reg; auto; lia).
    destruct (move_word A HV R128 1 (Z.lor a m) eq_refl Hr ltac:(lia)) as (n & -> & Hn & Ln). cbn [bind rbits] in *.
    rewrite i_bit_or_ok by (auto; reflexivity). cbn [bind]. rewrite ext_l; [|reflexivity|apply lor_reg; auto; lia|split; [lia|reflexivity]].
    cbn [bind eb]. f_equal. change (128 / 32) with 4 in *. rewrite lane_lor by lia. rewrite (Ln 0) by (try lia; reflexivity). rewrite !lane_lor by lia.
    rewrite (Lm 0) by (try lia; reflexivity). rewrite (Lm (0 + 1)) by (try lia; reflexivity). rewrite !nz_or, (zero_lanes 32 128 a) by auto. change (zrange (128 / 32)) with [0; 1; 2; 3]. cbn [existsb]. rewrite Bool.orb_false_r.
    change (0 + 1) with 1. change (0 + 2) with 2. change (1 + 2) with 3.
    destruct (lane 32 0 a =? 0), (lane 32 1 a =? 0), (lane 32 2 a =? 0), (lane 32 3 a =? 0); reflexivity.
  Qed.
  Lemma test32_ok a : reg 128 a -> test32_128 A fp a = Ok (nz a).
  Proof.
    intros Ha. unfold test32_128. destruct (use_null A) eqn:E0; [rewrite null_test_ok; auto|].
    destruct (use_sse41 A) eqn:E1; [rewrite testz_ok; auto|]. destruct (use_sse2 A) eqn:E2; [rewrite sse2_test_ok; auto|].
    destruct (use_neon A) eqn:E3; [destruct (use_64 A); [apply neon_test64|apply neon_test32]; auto|].
    destruct (use_altivec A) eqn:E4; [|destruct (use_msa A) eqn:E5; [reflexivity|exfalso; apply none_left with A; auto]].
    rewrite konst_ok by (auto; reflexivity). cbn [bind rbits wb]. change (splat 32 128 0) with 0. rewrite any_gt_ok; auto.
  Qed.
  Lemma i_test_ok w s a : avail_int A (wb w) s = true -> reg (rbits s) a -> i_test_bits_any A fp w s a = Ok (nz a).
  Proof.
    intros HA Ha. destruct s; cbn [i_test_bits_any rbits avail_int] in *.
    - pose proof (test32_ok a Ha) as T. destruct w; auto. rewrite T, any_gt_ok, null_test_ok by auto. destruct (use_vsx207 A); auto. destruct (use_null A || use_altivec A); auto.
    - rewrite HA, testz_ok. reflexivity.
    - rewrite HA, test_mask_ok by auto. reflexivity.
  Qed.
  Lemma f_test_ok d s a : avail_flt A s = true -> reg (rbits s) a -> f_test_bits_any A fp d s a = Ok (nz a).
  Proof.
    intros HA Ha. destruct s; cbn [f_test_bits_any rbits avail_flt] in *.
    - pose proof (test32_ok a Ha) as T. destruct d; rewrite T, !null_test_ok by auto; repeat split_if; reflexivity.
    - rewrite HA, testz_ok. reflexivity.
    - rewrite HA, test_mask_ok by auto. reflexivity.
  Qed.
  Lemma or_rest_ok or s r va : reg (rbits s) r -> wfv s va -> (forall a b, reg (rbits s) a -> reg (rbits s) b -> or a b = Ok (Z.lor a b)) ->
    exists x, or_rest or r va = Ok x /\ reg (rbits s) x /\ nz x = existsb (fun a => nz a) (r :: va).
  Proof.
    intros Hr Hva H. revert r Hr. induction Hva as [|a va Ha Hva IH]; intros r Hr; cbn [or_rest].
    - exists r. split; [reflexivity|]. split; auto. cbn [existsb]. rewrite Bool.orb_false_r. reflexivity.
    - rewrite H by auto. cbn [bind]. destruct (IH (Z.lor r a)) as (x & E & Hx & N); [apply lor_reg; auto; destruct s; cbn; lia|].
      exists x. split; [exact E|]. split; auto. rewrite N. cbn [existsb]. rewrite nz_or, Bool.orb_assoc. reflexivity.
  Qed.
End L.
Lemma nz_lanes w s va : wok w (rbits s) = true -> wfv s va ->
  (existsb (fun a => negb (a =? 0)) va = true <-> exists x i, In x (lanes w s va) /\ 0 <= i < w /\ Z.testbit x i = true).
Proof.
  intros HW Hva. destruct (wok_spec _ _ HW) as (Hw & _ & _ & Hn). rewrite existsb_exists. unfold lanes. split.
  - intros (a & Hi & Ha). unfold wfv in Hva. rewrite Forall_forall in Hva. specialize (Hva _ Hi). rewrite (zero_lanes w (rbits s)) in Ha by auto.
    apply existsb_exists in Ha as (i & Hir & Ha). apply zrange_in in Hir. apply Bool.negb_true_iff, Z.eqb_neq in Ha.
    pose proof (lane_range w i a ltac:(lia)) as RL. destruct (List.existsb (fun k => Z.testbit (lane w i a) k) (zrange w)) eqn:E.
    + apply existsb_exists in E as (k & Hk & Ek). apply zrange_in in Hk. exists (lane w i a), k. split; [|auto]. apply in_flat_map. exists a. split; auto.
      unfold elems. apply in_map_iff. exists (Z.to_nat i). rewrite Z2Nat.id by lia. split; auto. apply in_seq. lia.
    + exfalso. apply Ha. apply (bits_ext w); auto; try lia. intros k Hk. rewrite Z.bits_0. destruct (Z.testbit (lane w i a) k) eqn:T; auto. rewrite <- E. symmetry.
      apply existsb_exists. exists k. split; auto. apply in_zrange; lia.
  - intros (x & k & Hx & Hk & T). apply in_flat_map in Hx as (a & Ha & Hx). exists a. split; auto. apply Bool.negb_true_iff, Z.eqb_neq. intros ->.
    unfold elems in Hx. apply in_map_iff in Hx as (j & <- & _). rewrite lane_of_zero, Z.bits_0 in T. discriminate T.
Qed.
