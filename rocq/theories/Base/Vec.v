(** The library's long vectors: arrays of native registers, processed by the
    SIMDPP_VEC_ARRAY_IMPL loops. *)
From Verif Require Export Base.Isa Spec.Lanewise.

(** detail/vector_array_macros.h:20-60 (SIMDPP_VEC_ARRAY_IMPL1/2/3): apply the base
    function to the i-th registers, for i = 0 .. vec_length-1. *)
Fixpoint vec_impl1 (f : Z -> res Z) (a : vec) : res vec :=
  match a with
  | [] => Ok []
  | x :: a => let* r := f x in let* rs := vec_impl1 f a in Ok (r :: rs)
  end.
Fixpoint vec_impl2 (f : Z -> Z -> res Z) (a b : vec) : res vec :=
  match a, b with
  | x :: a, y :: b => let* r := f x y in let* rs := vec_impl2 f a b in Ok (r :: rs)
  | _, _ => Ok []
  end.
Fixpoint vec_impl3 (f : Z -> Z -> Z -> res Z) (a b c : vec) : res vec :=
  match a, b, c with
  | x :: a, y :: b, z :: c =>
      let* r := f x y z in let* rs := vec_impl3 f a b c in Ok (r :: rs)
  | _, _, _ => Ok []
  end.

Lemma elems_v1 w R f a : wok w R = true ->
  (forall x, 0 <= x < 2 ^ w -> 0 <= f x < 2 ^ w) ->
  elems w (nl w R) (v1 w R f a) = map f (elems w (nl w R) a).
Proof.
  intros H Hf. destruct (wok_spec _ _ H) as (Hw & HR & E & En).
  unfold elems. rewrite map_map. apply map_ext_in. intros i Hi. apply in_seq in Hi.
  rewrite lane_v1 by (auto; lia). apply wrap_small, Hf, lane_range. lia.
Qed.
Lemma zipw_map {X Y Z' K} (f : X -> Y -> Z') (g : K -> X) (h : K -> Y) l :
  zipw f (map g l) (map h l) = map (fun k => f (g k) (h k)) l.
Proof. induction l; cbn; congruence. Qed.
Lemma zipw3_map {X Y Z' W' K} (f : X -> Y -> Z' -> W') (g : K -> X) (h : K -> Y) (j : K -> Z') l :
  zipw3 f (map g l) (map h l) (map j l) = map (fun k => f (g k) (h k) (j k)) l.
Proof. induction l; cbn; congruence. Qed.
Lemma elems_v2 w R f a b : wok w R = true ->
  (forall x y, 0 <= x < 2 ^ w -> 0 <= y < 2 ^ w -> 0 <= f x y < 2 ^ w) ->
  elems w (nl w R) (v2 w R f a b) = zipw f (elems w (nl w R) a) (elems w (nl w R) b).
Proof.
  intros H Hf. destruct (wok_spec _ _ H) as (Hw & HR & E & En).
  unfold elems. rewrite zipw_map. apply map_ext_in. intros i Hi. apply in_seq in Hi.
  rewrite lane_v2 by (auto; lia). apply wrap_small, Hf; apply lane_range; lia.
Qed.
Lemma elems_v3 w R f a b c : wok w R = true ->
  (forall x y z, 0 <= x < 2 ^ w -> 0 <= y < 2 ^ w -> 0 <= z < 2 ^ w -> 0 <= f x y z < 2 ^ w) ->
  elems w (nl w R) (v3 w R f a b c) =
  zipw3 f (elems w (nl w R) a) (elems w (nl w R) b) (elems w (nl w R) c).
Proof.
  intros H Hf. destruct (wok_spec _ _ H) as (Hw & HR & E & En).
  unfold elems. rewrite zipw3_map. apply map_ext_in. intros i Hi. apply in_seq in Hi.
  rewrite lane_v3 by (auto; lia). apply wrap_small, Hf; apply lane_range; lia.
Qed.
Lemma zipw_app {X Y Z'} (f : X -> Y -> Z') l l' m m' : length l = length m ->
  zipw f (l ++ l') (m ++ m') = zipw f l m ++ zipw f l' m'.
Proof.
  revert m. induction l; destruct m; cbn; intros; try lia; auto. rewrite IHl by lia. reflexivity.
Qed.
Lemma zipw3_app {X Y Z' W'} (f : X -> Y -> Z' -> W') l l' m m' n n' :
  length l = length m -> length l = length n ->
  zipw3 f (l ++ l') (m ++ m') (n ++ n') = zipw3 f l m n ++ zipw3 f l' m' n'.
Proof.
  revert m n. induction l; destruct m, n; cbn; intros; try lia; auto. rewrite IHl by lia. reflexivity.
Qed.
Lemma lanes_cons w s r v : lanes w s (r :: v) = elems w (nl w (rbits s)) r ++ lanes w s v.
Proof. reflexivity. Qed.
Lemma wfv_cons s r v : wfv s (r :: v) <-> reg (rbits s) r /\ wfv s v.
Proof. unfold wfv. split; intros H; [inversion H; auto|constructor; tauto]. Qed.

Theorem lift1 w s f op : wok w (rbits s) = true ->
  (forall x, 0 <= x < 2 ^ w -> 0 <= f x < 2 ^ w) ->
  (forall a, reg (rbits s) a -> op a = Ok (v1 w (rbits s) f a)) ->
  computes1 w s (vec_impl1 op) f.
Proof.
  intros Hw Hf Hop va. induction va as [|a va IH]; intros Ha.
  - exists []. repeat split; try constructor.
  - apply wfv_cons in Ha as [Hr Ha]. destruct (IH Ha) as (vr & E & Wr & L & EL).
    exists (v1 w (rbits s) f a :: vr). cbn [vec_impl1]. rewrite Hop, E by auto. cbn [bind].
    repeat split; auto.
    + apply wfv_cons. split; auto.
    + cbn. lia.
    + rewrite !lanes_cons, map_app, EL, elems_v1; auto.
Qed.
Theorem lift2 w s f op : wok w (rbits s) = true ->
  (forall x y, 0 <= x < 2 ^ w -> 0 <= y < 2 ^ w -> 0 <= f x y < 2 ^ w) ->
  (forall a b, reg (rbits s) a -> reg (rbits s) b -> op a b = Ok (v2 w (rbits s) f a b)) ->
  computes2 w s (vec_impl2 op) f.
Proof.
  intros Hw Hf Hop va. induction va as [|a va IH]; intros [|b vb] Ha Hb Hlen; try discriminate.
  - exists []. repeat split; try constructor.
  - apply wfv_cons in Ha as [Hr Ha]. apply wfv_cons in Hb as [Hrb Hb].
    cbn in Hlen.
    destruct (IH vb Ha Hb ltac:(lia)) as (vr & E & Wr & L & EL).
    exists (v2 w (rbits s) f a b :: vr). cbn [vec_impl2]. rewrite Hop, E by auto. cbn [bind].
    repeat split; auto.
    + apply wfv_cons. split; auto.
    + cbn. lia.
    + rewrite !lanes_cons, zipw_app, EL, elems_v2; auto. rewrite !elems_length. reflexivity.
Qed.
Theorem lift3 w s f op : wok w (rbits s) = true ->
  (forall x y z, 0 <= x < 2 ^ w -> 0 <= y < 2 ^ w -> 0 <= z < 2 ^ w -> 0 <= f x y z < 2 ^ w) ->
  (forall a b c, reg (rbits s) a -> reg (rbits s) b -> reg (rbits s) c ->
     op a b c = Ok (v3 w (rbits s) f a b c)) ->
  computes3 w s (vec_impl3 op) f.
Proof.
  intros Hw Hf Hop va. induction va as [|a va IH]; intros [|b vb] [|c vc] Ha Hb Hc Hl1 Hl2; try discriminate.
  - exists []. repeat split; try constructor.
  - apply wfv_cons in Ha as [Hr Ha]. apply wfv_cons in Hb as [Hrb Hb].
    apply wfv_cons in Hc as [Hrc Hc]. cbn in Hl1, Hl2.
    destruct (IH vb vc Ha Hb Hc ltac:(lia) ltac:(lia)) as (vr & E & Wr & L & EL).
    exists (v3 w (rbits s) f a b c :: vr). cbn [vec_impl3]. rewrite Hop, E by auto. cbn [bind].
    repeat split; auto.
    + apply wfv_cons. split; auto.
    + cbn. lia.
    + rewrite !lanes_cons, zipw3_app, EL, elems_v3; auto; rewrite !elems_length; reflexivity.
Qed.

(** Variants: the instruction computes [g], which wraps to the specification [f]. *)
Theorem lift1w w s f g op : wok w (rbits s) = true ->
  (forall x, 0 <= x < 2 ^ w -> wrap w (g x) = f x) ->
  (forall a, reg (rbits s) a -> op a = Ok (v1 w (rbits s) g a)) ->
  computes1 w s (vec_impl1 op) f.
Proof.
  intros Hw Hf Hop. destruct (wok_spec _ _ Hw) as (Hp & _).
  apply lift1; auto.
  - intros x Hx. rewrite <- Hf by auto. apply wrap_range. lia.
  - intros a Ha. rewrite Hop by auto. f_equal. apply v1_ext; auto.
    intros x Hx. rewrite <- Hf, wrap_wrap by auto. reflexivity.
Qed.
Theorem lift2w w s f g op : wok w (rbits s) = true ->
  (forall x y, 0 <= x < 2 ^ w -> 0 <= y < 2 ^ w -> wrap w (g x y) = f x y) ->
  (forall a b, reg (rbits s) a -> reg (rbits s) b -> op a b = Ok (v2 w (rbits s) g a b)) ->
  computes2 w s (vec_impl2 op) f.
Proof.
  intros Hw Hf Hop. destruct (wok_spec _ _ Hw) as (Hp & _).
  apply lift2; auto.
  - intros x y Hx Hy. rewrite <- Hf by auto. apply wrap_range. lia.
  - intros a b Ha Hb. rewrite Hop by auto. f_equal. apply v2_ext; auto.
    intros x y Hx Hy. rewrite <- Hf, wrap_wrap by auto. reflexivity.
Qed.

Lemma Forall_elems w R (P : Z -> Prop) a : wok w R = true -> Forall P (elems w (nl w R) a) ->
  forall i, 0 <= i < R / w -> P (lane w i a).
Proof.
  intros H HF i Hi. destruct (wok_spec _ _ H) as (Hw & HR & E & En).
  rewrite Forall_forall in HF. apply HF. unfold elems. apply in_map_iff.
  exists (Z.to_nat i). rewrite Z2Nat.id by lia. split; auto. apply in_seq. lia.
Qed.
Lemma Forall2_elems w R (P : Z -> Z -> Prop) a b : wok w R = true ->
  Forall2 P (elems w (nl w R) a) (elems w (nl w R) b) ->
  forall i, 0 <= i < R / w -> P (lane w i a) (lane w i b).
Proof.
  intros H HF i Hi. destruct (wok_spec _ _ H) as (Hw & HR & E & En).
  unfold elems in HF.
  assert (forall l, Forall2 P (map (fun i => lane w (Z.of_nat i) a) l) (map (fun i => lane w (Z.of_nat i) b) l) ->
    forall j, In j l -> P (lane w (Z.of_nat j) a) (lane w (Z.of_nat j) b)) as HG.
  { induction l as [|k l IH]; cbn; intros HL j Hj; [tauto|]. inversion HL; subst.
    destruct Hj as [->|Hj]; auto. }
  rewrite <- (Z2Nat.id i) by lia. apply (HG _ HF). apply in_seq. lia.
Qed.
Lemma Forall2_app_split {X Y} (P : X -> Y -> Prop) l1 l2 m1 m2 : length l1 = length m1 ->
  Forall2 P (l1 ++ l2) (m1 ++ m2) -> Forall2 P l1 m1 /\ Forall2 P l2 m2.
Proof.
  revert m1. induction l1; destruct m1; cbn; intros HL HF; try lia; auto.
  inversion HF; subst. destruct (IHl1 m1 ltac:(lia) H4). auto.
Qed.
Theorem lift1p w s (P : Z -> Prop) f g op : wok w (rbits s) = true ->
  (forall x, 0 <= x < 2 ^ w -> wrap w (g x) = f x) ->
  (forall a, reg (rbits s) a -> (forall i, 0 <= i < rbits s / w -> P (lane w i a)) ->
     op a = Ok (v1 w (rbits s) g a)) ->
  computes1_if w s P (vec_impl1 op) f.
Proof.
  intros Hw Hf Hop va. destruct (wok_spec _ _ Hw) as (Hp & _).
  induction va as [|a va IH]; intros Ha HP.
  - exists []. repeat split; try constructor.
  - apply wfv_cons in Ha as [Hr Ha]. rewrite lanes_cons in HP. apply Forall_app in HP as [HP1 HP2].
    destruct (IH Ha HP2) as (vr & E & Wr & L & EL).
    exists (v1 w (rbits s) g a :: vr). cbn [vec_impl1].
    rewrite Hop, E by (auto; apply Forall_elems; auto). cbn [bind].
    repeat split; auto.
    + apply wfv_cons. split; auto.
    + cbn. lia.
    + rewrite !lanes_cons, map_app, EL. f_equal.
      rewrite <- elems_v1; auto.
      * f_equal. apply v1_ext; auto. intros x Hx. rewrite <- Hf, wrap_wrap by auto. reflexivity.
      * intros x Hx. rewrite <- Hf by auto. apply wrap_range. lia.
Qed.
Theorem lift2p w s (P : Z -> Z -> Prop) f g op : wok w (rbits s) = true ->
  (forall x y, 0 <= x < 2 ^ w -> 0 <= y < 2 ^ w -> wrap w (g x y) = f x y) ->
  (forall a b, reg (rbits s) a -> reg (rbits s) b ->
     (forall i, 0 <= i < rbits s / w -> P (lane w i a) (lane w i b)) ->
     op a b = Ok (v2 w (rbits s) g a b)) ->
  computes2_if w s P (vec_impl2 op) f.
Proof.
  intros Hw Hf Hop va. destruct (wok_spec _ _ Hw) as (Hp & _).
  induction va as [|a va IH]; intros [|b vb] Ha Hb Hlen HP; try discriminate.
  - exists []. repeat split; try constructor.
  - apply wfv_cons in Ha as [Hr Ha]. apply wfv_cons in Hb as [Hrb Hb]. cbn in Hlen.
    rewrite !lanes_cons in HP. apply Forall2_app_split in HP as [HP1 HP2]; [|rewrite !elems_length; reflexivity].
    destruct (IH vb Ha Hb ltac:(lia) HP2) as (vr & E & Wr & L & EL).
    exists (v2 w (rbits s) g a b :: vr). cbn [vec_impl2].
    rewrite Hop, E by (auto; apply Forall2_elems; auto). cbn [bind].
    repeat split; auto.
    + apply wfv_cons. split; auto.
    + cbn. lia.
    + rewrite !lanes_cons, zipw_app, EL by (rewrite !elems_length; reflexivity). f_equal.
      rewrite <- elems_v2; auto.
      * f_equal. apply v2_ext; auto. intros x y Hx Hy. rewrite <- Hf, wrap_wrap by auto. reflexivity.
      * intros x y Hx Hy. rewrite <- Hf by auto. apply wrap_range. lia.
Qed.
