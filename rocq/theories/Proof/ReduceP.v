(** Horizontal reductions: the generic part (folds of an associative, commutative operation with
    identity over the lanes of registers) and the ladders. *)
From Verif Require Import Spec.Reduce Model.Reduce Proof.CppLemmas Proof.BitwiseP Proof.ArithP Proof.ShiftP Proof.SetSplatP
  Proof.MinMaxP Proof.MoveP Proof.ExtractP2 Proof.SplitP Proof.MakeConstP Proof.LoadStoreP4 Proof.PopcntP3.

Section Fold.
  Variables (f : Z -> Z -> Z) (e : Z) (P : Z -> Prop).
  Hypotheses (f_assoc : forall x y z, P x -> P y -> P z -> f x (f y z) = f (f x y) z) (f_comm : forall x y, P x -> P y -> f x y = f y x)
    (P_e : P e) (P_f : forall x y, P x -> P y -> P (f x y)) (f_e : forall x, P x -> f e x = x).
  Definition red (l : list Z) : Z := fold_right f e l.
  Lemma red_P l : Forall P l -> P (red l).
  Proof. induction 1; cbn; auto. Qed.
  Lemma red_app l m : Forall P l -> Forall P m -> red (l ++ m) = f (red l) (red m).
  Proof.
    intros Hl Hm. induction Hl as [|x l Hx Hl IH]; cbn [red fold_right app].
    - symmetry. apply f_e. apply red_P; auto.
    - fold (red (l ++ m)) (red l) (red m). rewrite IH. apply f_assoc; auto; apply red_P; auto.
  Qed.
  Lemma red_one x : P x -> red [x] = x.
  Proof. intros. cbn. rewrite f_comm by auto. auto. Qed.
  Lemma red_zip l : forall m, length l = length m -> Forall P l -> Forall P m -> red (zipw f l m) = f (red l) (red m).
  Proof.
    induction l as [|x l IH]; intros [|y m] E Hl Hm; try discriminate; cbn [zipw red fold_right].
    - symmetry. apply f_e; auto.
    - inversion Hl; inversion Hm; subst. fold (red (zipw f l m)) (red l) (red m). rewrite IH by (auto; injection E; auto).
      assert (P (red l)) by (apply red_P; auto). assert (P (red m)) by (apply red_P; auto).
      rewrite <- (f_assoc x y), <- (f_assoc x (red l)) by auto. f_equal.
      rewrite (f_comm (red l) (f y (red m))), (f_comm (red l) (red m)) by auto. rewrite <- f_assoc by auto. reflexivity.
  Qed.
  Lemma red_left l : forall x, P x -> Forall P l -> fold_left f l x = f x (red l).
  Proof.
    induction l as [|y l IH]; intros x Hx Hl; cbn [fold_left red fold_right].
    - rewrite f_comm by auto. symmetry. auto.
    - inversion Hl; subst. rewrite IH by auto. fold (red l). symmetry. apply f_assoc; auto. apply red_P; auto.
  Qed.
  Lemma accum_ok tr t op l : forall x, (forall x y, P x -> P y -> exists c, op (tr, x) (t, y) = Ok c /\ ccast tr c = (tr, f x y)) ->
    P x -> Forall P l -> accum tr op (tr, x) (map (pair t) l) = Ok (tr, fold_left f l x).
  Proof.
    induction l as [|y l IH]; intros x Ho Hx Hl; cbn [accum map fold_left]; [reflexivity|]. inversion Hl; subst.
    destruct (Ho x y) as (c & E & Ec); auto. rewrite E. cbn [bind]. rewrite Ec. apply IH; auto.
  Qed.

  (** lanes of w bits standing for values *)
  Variables (w : Z) (v : Z -> Z) (g : Z -> Z -> Z).
  Hypotheses (v_P : forall x, 0 <= x < 2 ^ w -> P (v x))
    (v_g : forall x y, 0 <= x < 2 ^ w -> 0 <= y < 2 ^ w -> v (wrap w (g x y)) = f (v x) (v y)).
  Definition mean (n : nat) (r : Z) : Z := red (map v (elems w n r)).
  Lemma elems_P n r : 0 < w -> Forall P (map v (elems w n r)).
  Proof. intros. apply Forall_forall. intros x Hx. apply in_map_iff in Hx as (y & <- & Hy). apply v_P.
    unfold elems in Hy. apply in_map_iff in Hy as (i & <- & _). apply lane_range. lia. Qed.
  Lemma mean_P n r : 0 < w -> P (mean n r).
  Proof. intros. apply red_P, elems_P; auto. Qed.
  Lemma lanes_P s va : 0 < w -> Forall P (map v (lanes w s va)).
  Proof. intros. induction va as [|a va IH]; [constructor|]. rewrite lanes_cons, map_app. apply Forall_app. split; [apply elems_P|]; auto. Qed.
  Lemma elems_g n R a b : wok w R = true -> (n <= nl w R)%nat ->
    map v (elems w n (v2 w R g a b)) = zipw f (map v (elems w n a)) (map v (elems w n b)).
  Proof.
    intros Hw Hn. destruct (wok_spec _ _ Hw) as (Hp & HR & E & En). unfold elems.
    assert (forall i0 k, (i0 + k <= n)%nat -> map v (map (fun i => lane w (Z.of_nat i) (v2 w R g a b)) (seq i0 k)) =
      zipw f (map v (map (fun i => lane w (Z.of_nat i) a) (seq i0 k))) (map v (map (fun i => lane w (Z.of_nat i) b) (seq i0 k)))) as H.
    { intros i0 k. revert i0. induction k as [|k IH]; intros i0 Hk; [reflexivity|]. cbn [seq map zipw]. rewrite IH by lia. f_equal.
      rewrite lane_v2 by (auto; rewrite <- En; lia). rewrite v_g; [reflexivity| |]; apply lane_range; lia. }
    apply H. lia.
  Qed.
  Lemma mean_v2 n R a b : wok w R = true -> (n <= nl w R)%nat -> mean n (v2 w R g a b) = f (mean n a) (mean n b).
  Proof.
    intros Hw Hn. destruct (wok_spec _ _ Hw) as (Hp & _). unfold mean. rewrite elems_g by auto.
    apply red_zip; try (apply elems_P; auto). rewrite !map_length, !elems_length. reflexivity.
  Qed.
  Lemma elems_split n k r : elems w (n + k) r = elems w n r ++ map (fun i => lane w (Z.of_nat n + Z.of_nat i) r) (seq 0 k).
  Proof.
    unfold elems. rewrite seq_app, map_app. f_equal. cbn [plus].
    assert (forall m, seq (n + m) k = map (fun i => (n + i)%nat) (seq m k)) as E.
    { clear. induction k as [|k IH]; intros m; [reflexivity|]. cbn [seq map]. f_equal. rewrite <- IH. f_equal. lia. }
    specialize (E 0%nat). rewrite Nat.add_0_r in E. rewrite E, map_map. apply map_ext. intros. f_equal. lia.
  Qed.
  Lemma mean_app n k r : 0 < w -> mean (n + k) r = f (mean n r) (red (map v (map (fun i => lane w (Z.of_nat n + Z.of_nat i) r) (seq 0 k)))).
  Proof.
    intros. unfold mean. rewrite elems_split, map_app. apply red_app; [apply elems_P; auto|].
    apply Forall_forall. intros x Hx. apply in_map_iff in Hx as (y & <- & Hy). apply v_P.
    apply in_map_iff in Hy as (i & <- & _). apply lane_range. lia.
  Qed.
  (** foldv of a lane operation *)
  Variables (A : arch) (fp : Z) (t : et) (op : rsz -> Z -> Z -> res Z).
  Hypotheses (HV : valid_arch A = true) (Hfp : fp mod 16 = 0) (Hw : eb t = w).
  Hypothesis op_ok : forall s a b, avail_et A t s = true -> reg (rbits s) a -> reg (rbits s) b -> op s a b = Ok (v2 w (rbits s) g a b).
  Let wokt s : wok w (rbits s) = true. Proof. rewrite <- Hw. destruct t, s; reflexivity. Qed.
  Let wpos : 0 < w. Proof. rewrite <- Hw. destruct t; reflexivity. Qed.
  Lemma foldv_ok s va : avail_et A t s = true -> wfv s va -> forall a, reg (rbits s) a ->
    exists r, foldv (op s) a va = Ok r /\ reg (rbits s) r /\
      mean (nl w (rbits s)) r = f (mean (nl w (rbits s)) a) (red (map v (lanes w s va))).
  Proof.
    intros HA Hva. induction Hva as [|b va Hb Hva IH]; intros a Ha; cbn [foldv].
    - exists a. repeat split; auto; try apply Ha. cbn [lanes flat_map map red fold_right]. rewrite f_comm by (auto using mean_P). symmetry. apply f_e. apply mean_P; auto.
    - rewrite op_ok by auto. cbn [bind]. destruct (IH (v2 w (rbits s) g a b)) as (r & E & Hr & M); [apply v2_reg; auto|].
      exists r. split; [exact E|]. split; [exact Hr|]. rewrite M, mean_v2 by auto. rewrite lanes_cons, map_app, red_app by (auto using elems_P, lanes_P).
      symmetry. apply f_assoc; auto using mean_P. apply red_P, lanes_P; auto.
  Qed.
  (** one halving step *)
  Lemma step_ok k r : (0 < k)%nat -> 2 * Z.of_nat k <= en t -> reg 128 r ->
    exists m r', i_move_l A t R128 (Z.of_nat k) r = Ok m /\ op R128 r m = Ok r' /\ reg 128 r' /\ mean k r' = mean (k + k) r.
  Proof.
    intros Hk He Hr. assert (HA : avail_et A t R128 = true) by (destruct t; reflexivity).
    assert (HW : wok w 128 = true) by apply (wokt R128).
    assert (HG : gok w 128 (en t) = true) by (rewrite <- Hw; destruct t; reflexivity).
    assert (HD : 128 / (en t * w) = 1) by (rewrite <- Hw; destruct t; reflexivity).
    assert (HN : Z.of_nat (nl w 128) = en t) by (rewrite <- Hw; destruct t; reflexivity).
    pose proof (i_move_l_ok A t R128 (Z.of_nat k) r HV HA Hr ltac:(lia) ltac:(apply Z.eqb_neq; lia)) as Em.
    rewrite Hw in Em. cbn [rbits] in Em. do 2 eexists. split; [exact Em|].
    split; [apply op_ok; auto; apply lsh_reg; auto|]. cbn [rbits]. split; [apply v2_reg; auto|].
    rewrite mean_v2 by (auto; lia). rewrite mean_app by auto. f_equal. unfold mean. f_equal. unfold elems. rewrite !map_map.
    apply map_ext_in. intros i Hi. apply in_seq in Hi. f_equal.
    replace (Z.of_nat i) with (en t * 0 + Z.of_nat i) at 1 by lia. rewrite lane_lsh by (auto; lia).
    unfold p_move_l. replace (Z.of_nat i + Z.of_nat k <? en t) with true by (symmetry; apply Z.ltb_lt; lia).
    cbn [nth]. f_equal. lia.
  Qed.
  Fixpoint chain (ks : list Z) (n : nat) : Prop :=
    match ks with [] => n = 1%nat | k :: ks => 0 < k /\ 2 * k <= en t /\ n = (Z.to_nat k + Z.to_nat k)%nat /\ chain ks (Z.to_nat k) end.
  Lemma tree_ok ks : forall n r, chain ks n -> reg 128 r ->
    exists r', halve A (op R128) t ks r = Ok r' /\ reg 128 r' /\ v (lane w 0 r') = mean n r.
  Proof.
    induction ks as [|k ks IH]; intros n r HC Hr; cbn [chain halve] in *.
    - subst n. exists r. split; [reflexivity|]. split; [exact Hr|]. unfold mean, elems. cbn [seq map].
      symmetry. apply red_one. apply v_P, lane_range. lia.
    - destruct HC as (Hk & He & -> & HC). destruct (step_ok (Z.to_nat k) r) as (m & r1 & Em & Eo & Hr1 & M); [lia|lia|exact Hr|].
      rewrite Z2Nat.id in Em by lia. rewrite Em. cbn [bind]. rewrite Eo. cbn [bind].
      destruct (IH _ r1 HC Hr1) as (r' & E & Hr' & M'). exists r'. split; [exact E|]. split; [exact Hr'|]. rewrite M', M. reflexivity.
  Qed.
  Lemma shifts_chain : chain (shifts t) (nl w 128).
  Proof. unfold chain. destruct t; rewrite <- Hw; cbn [shifts eb]; repeat split; try reflexivity; vm_compute; discriminate. Qed.
  Lemma red_tree_ok sg a : reg 128 a -> extract_def A sg t ->
    exists x, red_tree A fp (op R128) sg t a = Ok (value sg w x) /\ 0 <= x < 2 ^ w /\ v x = mean (nl w 128) a.
  Proof.
    intros Ha HD. destruct (tree_ok (shifts t) _ a shifts_chain Ha) as (r & E & Hr & M). unfold red_tree. rewrite E. cbn [bind].
    rewrite (i_extract_ok A fp HV R128 Hfp sg t 0 r); auto.
    - rewrite Hw. exists (lane w 0 r). split; [reflexivity|]. split; [apply lane_range; lia|exact M].
    - destruct t; reflexivity.
    - destruct t; split; vm_compute; try discriminate; reflexivity.
  Qed.
  (** wide registers *)
  Lemma mean_halves H a : wok w H = true -> mean (nl w (2 * H)) a = f (mean (nl w H) (lane H 0 a)) (mean (nl w H) (lane H 1 a)).
  Proof. intros HH. unfold mean. rewrite elems_halves by auto. rewrite map_app. apply red_app; apply elems_P; auto. Qed.
  Variables (red128 : Z -> res Z) (F : Z -> Z -> Prop).
  Lemma red_wide_ok s a : avail_et A t s = true -> avail_et A t R256 = true \/ s = R128 -> reg (rbits s) a ->
    (forall a, reg 128 a -> exists r, red128 a = Ok r /\ F (mean (nl w 128) a) r) ->
    exists r, red_wide A op red128 t s a = Ok r /\ F (mean (nl w (rbits s)) a) r.
  Proof.
    intros HA HA2 Ha H1. assert (HA1 : avail_et A t R128 = true) by (destruct t; reflexivity).
    assert (H256 : forall a, reg 256 a -> exists r, (let* r := op R128 (mm_extract128 0 a) (mm_extract128 1 a) in red128 r) = Ok r /\ F (mean (nl w 256) a) r).
    { intros b Hb. unfold mm_extract128. rewrite op_ok by (auto; apply lane_range; lia). cbn [bind rbits].
      destruct (H1 (v2 w 128 g (lane 128 0 b) (lane 128 1 b))) as (r & E & M); [apply v2_reg, (wokt R128)|]. exists r. split; [exact E|].
      change 256 with (2 * 128). rewrite mean_halves by apply (wokt R128). rewrite mean_v2 in M by (auto; apply (wokt R128)). exact M. }
    destruct s; cbn [red_wide rbits] in *.
    - apply H1; auto.
    - unfold if_wide. rewrite HA. apply H256; auto.
    - destruct HA2 as [HA2|]; [|discriminate]. unfold if_wide. rewrite HA. unfold mm_extract256. rewrite op_ok by (auto; unfold reg; cbn [rbits]; apply lane_range; discriminate). cbn [bind rbits].
      destruct (H256 (v2 w 256 g (lane 256 0 a) (lane 256 1 a))) as (r & E & M); [apply v2_reg, (wokt R256)|]. exists r. split; [exact E|].
      change 512 with (2 * 256). rewrite mean_halves by apply (wokt R256). rewrite mean_v2 in M by (auto; apply (wokt R256)). exact M.
  Qed.
  Lemma mean_lanes s a : mean (nl w (rbits s)) a = red (map v (lanes w s [a])).
  Proof. unfold mean, lanes. cbn [flat_map]. rewrite app_nil_r. reflexivity. Qed.
  Lemma red_multi_ok s one va : avail_et A t s = true -> wfv s va -> va <> [] ->
    (forall a, reg (rbits s) a -> exists r, one a = Ok r /\ F (mean (nl w (rbits s)) a) r) ->
    exists r, red_multi (op s) one va = Ok r /\ F (red (map v (lanes w s va))) r.
  Proof.
    intros HA Hva Hn H1. destruct va as [|a va]; [contradiction|]. cbn [red_multi]. inversion Hva; subst.
    destruct (foldv_ok s va HA ltac:(auto) a ltac:(auto)) as (r & E & Hr & M). rewrite E. cbn [bind].
    destruct (H1 r Hr) as (x & Ex & Mx). exists x. split; [exact Ex|]. rewrite M in Mx.
    rewrite lanes_cons, map_app, red_app by (auto using elems_P, lanes_P). exact Mx.
  Qed.
  (** the scalar loops *)
  Variables (c : cty) (sop : cval -> cval -> res cval).
  Hypotheses (Hc : snd c = w) (v_c : forall x, 0 <= x < 2 ^ w -> v x = cconv c x)
    (sop_ok : forall x y, P x -> P y -> exists d, sop (c, x) (c, y) = Ok d /\ ccast c d = (c, f x y)).
  Lemma els_eq R from a : els c R from a = map (pair c) (map v (map (fun i => lane w (Z.of_nat i) a) (seq from (nl w R - from)))).
  Proof. unfold els, el. rewrite Hc, !map_map. apply map_ext. intros. rewrite v_c by (apply lane_range; lia). reflexivity. Qed.
  Lemma els_P R from a : Forall P (map v (map (fun i => lane w (Z.of_nat i) a) (seq from (nl w R - from)))).
  Proof.
    apply Forall_forall. intros x Hx. apply in_map_iff in Hx as (y & <- & Hy). apply v_P.
    apply in_map_iff in Hy as (i & <- & _). apply lane_range. lia.
  Qed.
  Lemma null_red1_ok from a : (forall x y, P x -> P y -> f x (f x y) = f x y) \/ from = 1%nat -> (from <= 1)%nat -> cconv c (v (lane w 0 a)) = v (lane w 0 a) ->
    null_red1 c c sop from a = Ok (mean (nl w 128) a).
  Proof.
    intros Hi Hf E0. unfold null_red1, el, ccast. cbn [snd]. rewrite Hc, els_eq. rewrite <- (v_c (lane w 0 a)) by (apply lane_range; lia). rewrite E0.
    rewrite (accum_ok c c sop) by (auto using els_P; apply v_P, lane_range; lia). cbn [bind snd]. f_equal.
    rewrite red_left by (auto using els_P; apply v_P, lane_range; lia).
    assert (E : mean (nl w 128) a = f (v (lane w 0 a)) (red (map v (map (fun i => lane w (Z.of_nat i) a) (seq 1 (nl w 128 - 1)))))).
    { assert (nl w 128 = S (nl w 128 - 1)) as En by (clear - Hw; rewrite <- Hw; destruct t; reflexivity).
      unfold mean, elems. rewrite En at 1. cbn [seq map red fold_right]. reflexivity. }
    destruct from as [|[|]]; [|symmetry; exact E|lia].
    destruct Hi as [Hi|]; [|discriminate]. rewrite Nat.sub_0_r. fold (elems w (nl w 128) a). fold (mean (nl w 128) a). rewrite E.
    apply Hi; [apply v_P, lane_range; lia|apply red_P, els_P].
  Qed.
  Lemma els_lanes va : flat_map (els c 128 0) va = map (pair c) (map v (lanes w R128 va)).
  Proof. induction va as [|a va IH]; [reflexivity|]. cbn [flat_map]. rewrite IH, lanes_cons, !map_app. f_equal. rewrite els_eq, Nat.sub_0_r. reflexivity. Qed.
  Lemma null_redN_ok va : null_redN c c sop e va = Ok (red (map v (lanes w R128 va))).
  Proof.
    unfold null_redN. rewrite els_lanes, (accum_ok c c sop) by (auto using lanes_P). cbn [bind snd]. f_equal.
    rewrite red_left by (auto using lanes_P). apply f_e, red_P, lanes_P; auto.
  Qed.
End Fold.

Lemma avail_256 A t s : valid_arch A = true -> avail_et A t s = true -> avail_et A t R256 = true \/ s = R128.
Proof.
  intros HV HA. destruct s; auto. left. destruct t; cbn in HA |- *;
    (match goal with |- ?x = true => destruct x eqn:? end; [reflexivity|exfalso; vimp HV]).
Qed.

Lemma narrow A w s : valid_arch A = true -> avail_int A w s = true -> use_sse2 A = false -> s = R128.
Proof.
  intros HV HA H. destruct s; auto; cbn [avail_int] in HA; exfalso; [vimp HV|]. destruct (w <=? 16); vimp HV.
Qed.

(** ---------- reduce_or, reduce_and ---------- *)
Section Bits.
  Variables (A : arch) (fp : Z).
  Hypotheses (HV : valid_arch A = true) (Hfp : fp mod 16 = 0).
  Variables (isand : bool) (w : ew).
  Definition bf : Z -> Z -> Z := if isand then Z.land else Z.lor.
  Definition be : Z := b_init isand w.
  Let Pr x := 0 <= x < 2 ^ wb w.
  Lemma bf_assoc x y z : bf x (bf y z) = bf (bf x y) z.
  Proof. unfold bf. destruct isand; [apply Z.land_assoc|apply Z.lor_assoc]. Qed.
  Lemma bf_comm x y : bf x y = bf y x.
  Proof. unfold bf. destruct isand; [apply Z.land_comm|apply Z.lor_comm]. Qed.
  Lemma be_P : Pr be.
  Proof. unfold be, b_init, Pr. destruct isand, w; vm_compute; split; congruence. Qed.
  Lemma bf_P x y : Pr x -> Pr y -> Pr (bf x y).
  Proof. unfold bf, Pr. intros. destruct isand; [apply land_reg|apply lor_reg]; auto; destruct w; discriminate. Qed.
  Lemma bf_e x : Pr x -> bf be x = x.
  Proof.
    unfold bf, be, b_init, Pr. intros. destruct isand; [|reflexivity].
    rewrite Z.land_comm, Z.sub_1_r, <- Z.ones_equiv, Z.land_ones by (destruct w; discriminate). apply Z.mod_small. auto.
  Qed.
  Lemma bf_idem x y : bf x (bf x y) = bf x y.
  Proof. rewrite bf_assoc. f_equal. unfold bf. destruct isand; [apply Z.land_diag|apply Z.lor_diag]. Qed.
  Lemma b_op_ok s a b : avail_et A (iet w) s = true -> reg (rbits s) a -> reg (rbits s) b ->
    b_op A isand w s a b = Ok (v2 (wb w) (rbits s) bf a b).
  Proof.
    intros HA Ha Hb. assert (avail_int A (wb w) s = true) by (destruct w; exact HA). assert (wok (wb w) (rbits s) = true) by (destruct w, s; reflexivity).
    unfold b_op, bf. destruct isand.
    - rewrite i_bit_and_ok by auto. f_equal. apply land_v2; auto.
    - rewrite i_bit_or_ok by auto. f_equal. apply lor_v2; auto.
  Qed.
  Lemma b_sop x y : Pr x -> Pr y -> exists d, b_null isand (ut w, x) (ut w, y) = Ok d /\ ccast (ut w) d = (ut w, bf x y).
  Proof.
    intros Hx Hy. exists (pt w, bf x y). split.
    - unfold b_null, bf. destruct isand; unfold c_and, c_or; apply carith_u; auto; [apply land_reg|apply lor_reg]; auto; destruct w; discriminate.
    - apply ccast_u. apply bf_P; auto.
  Qed.
  Lemma b_vg x y : Pr x -> Pr y -> wrap (wb w) (bf x y) = bf x y.
  Proof. intros. apply wrap_small, bf_P; auto. Qed.
  Let ebw : eb (iet w) = wb w. Proof. destruct w; reflexivity. Qed.
  Lemma red_bits128_ok a : reg 128 a -> exists r, red_bits128 A fp isand w a = Ok r /\ r = mean bf be (wb w) (fun x => x) (nl (wb w) 128) a.
  Proof.
    intros Ha.
    assert (T : red_tree A fp (b_op A isand w R128) false (iet w) a = Ok (mean bf be (wb w) (fun x => x) (nl (wb w) 128) a)).
    { destruct (red_tree_ok bf be Pr ltac:(intros; apply bf_assoc) ltac:(intros; apply bf_comm) be_P bf_P bf_e (wb w) (fun x => x) bf
        ltac:(auto) b_vg A fp (iet w) (b_op A isand w) HV Hfp ebw b_op_ok false a Ha) as (x & E & Hx & M); [discriminate|].
      rewrite E. cbn [value]. rewrite M. reflexivity. }
    assert (N : forall k, (k <= 1)%nat -> null_red1 (ut w) (ut w) (b_null isand) k a = Ok (mean bf be (wb w) (fun x => x) (nl (wb w) 128) a)).
    { intros k Hk. apply (null_red1_ok bf be Pr ltac:(intros; apply bf_assoc) ltac:(intros; apply bf_comm) be_P bf_P bf_e (wb w) (fun x => x) bf
        ltac:(auto) A (iet w) (b_op A isand w) ebw b_op_ok (ut w) (b_null isand)); auto using b_sop.
      - intros. symmetry. apply u_cconv; auto.
      - left. intros. apply bf_idem.
      - apply u_cconv. apply lane_range. destruct w; discriminate. }
    eexists. split; [|reflexivity]. unfold red_bits128. clear - HV T N. fam HV; rw_flags; destruct w; cbn [orb]; repeat split_if; try exact T; try (apply N; destruct isand; lia).
  Qed.
  Lemma reduce_bits_ok s va : avail_int A (wb w) s = true -> wfv s va -> va <> [] ->
    reduce_bits A fp isand w s va = Ok (red bf be (lanes (wb w) s va)).
  Proof.
    intros HA0 Hva Hn. assert (HA : avail_et A (iet w) s = true) by (destruct w; exact HA0).
    assert (H1 : forall a, reg (rbits s) a -> exists r, red_wide A (fun s => b_op A isand w s) (red_bits128 A fp isand w) (iet w) s a = Ok r /\
      (fun m r => r = m) (mean bf be (wb w) (fun x => x) (nl (wb w) (rbits s)) a) r).
    { intros a Ha. apply (red_wide_ok bf be Pr ltac:(intros; apply bf_assoc) ltac:(intros; apply bf_comm) be_P bf_P bf_e (wb w) (fun x => x) bf
        ltac:(auto) b_vg A (iet w) (b_op A isand w) ebw b_op_ok (red_bits128 A fp isand w) (fun m r => r = m)); auto using avail_256, red_bits128_ok. }
    assert (HM : red_multi (b_op A isand w s) (red_wide A (fun s => b_op A isand w s) (red_bits128 A fp isand w) (iet w) s) va = Ok (red bf be (lanes (wb w) s va))).
    { destruct (red_multi_ok bf be Pr ltac:(intros; apply bf_assoc) ltac:(intros; apply bf_comm) be_P bf_P bf_e (wb w) (fun x => x) bf
        ltac:(auto) b_vg A (iet w) (b_op A isand w) ebw b_op_ok (fun m r => r = m) s _ va HA Hva Hn H1) as (r & E & ->).
      rewrite E, map_id. reflexivity. }
    assert (HN : s = R128 -> null_redN (ut w) (ut w) (b_null isand) (b_init isand w) va = Ok (red bf be (lanes (wb w) s va))).
    { intros ->. rewrite (null_redN_ok bf be Pr ltac:(intros; apply bf_assoc) ltac:(intros; apply bf_comm) be_P bf_P bf_e (wb w) (fun x => x) bf
        ltac:(auto) A (iet w) (b_op A isand w) ebw b_op_ok (ut w) (b_null isand) eq_refl ltac:(intros; symmetry; apply u_cconv; auto) b_sop). rewrite map_id. reflexivity. }
    unfold reduce_bits. destruct va as [|a [|b va]]; [contradiction| |].
    - inversion Hva; subst. destruct (H1 a ltac:(auto)) as (r & E & ->). rewrite E. f_equal. unfold mean, lanes. cbn [flat_map]. rewrite app_nil_r, map_id. reflexivity.
    - match goal with |- (if ?c then _ else _) = _ => destruct c eqn:Ec end; [|exact HM].
      apply HN. apply (narrow A (wb w)); auto. clear - HV Ec. destruct (use_null A) eqn:?; [fam HV; auto; fcontra|].
      cbn [orb] in Ec. destruct w; try discriminate Ec. rewrite !andb_true_iff in Ec. destruct Ec as [[_ Ec] _]. fam HV; auto; fcontra.
  Qed.
End Bits.
