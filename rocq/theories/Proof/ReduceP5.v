(** reduce_add of 8 and 16-bit elements. *)
From Verif Require Import Spec.Reduce Model.ReduceAdd Proof.CppLemmas Proof.BitwiseP Proof.ArithP Proof.ShiftP Proof.SetSplatP Proof.CmpP
  Proof.MinMaxP Proof.MoveP Proof.ExtractP2 Proof.SplitP Proof.MakeConstP Proof.LoadStoreP4 Proof.PopcntP Proof.PopcntP3 Proof.ReduceP Proof.ReduceP3 Proof.ReduceP4.

(** ---------- the scalar loops ---------- *)
Lemma accum_add (tr t : cty) : 0 < snd tr ->
  (forall x y, fits tr x = true -> fits t y = true -> exists d, c_add (tr, x) (t, y) = Ok d /\ ccast tr d = (tr, cconv tr (x + y))) ->
  forall l x, fits tr x = true -> Forall (fun y => fits t y = true) l ->
  accum tr c_add (tr, x) (map (pair t) l) = Ok (tr, cconv tr (x + total l)).
Proof.
  intros Hp H. induction l as [|y l IH]; intros x Hx Hl; cbn [map accum total fold_right].
  - rewrite Z.add_0_r, cconv_id by auto. reflexivity.
  - inversion Hl; subst. destruct (H x y) as (d & E & C); auto. rewrite E. cbn [bind]. rewrite C. rewrite IH by (auto using cconv_fits).
    do 2 f_equal. fold (total l). apply cconv_cg; auto. rewrite Z.add_assoc. apply cg_add; [lia| |apply cg_refl]. apply cg_cconv. lia.
Qed.
(** in a 32-bit accumulator that cannot overflow *)
Lemma accum_add_32 l : forall x B, 0 <= B -> - B <= x <= B -> B + 2 ^ 15 * Z.of_nat (length l) < 2 ^ 31 -> Forall (fun y => fits c_i16 y = true) l ->
  accum c_i32 c_add (c_i32, x) (map (pair c_i16) l) = Ok (c_i32, x + total l).
Proof.
  induction l as [|y l IH]; intros x B H0 HB HL Hl; cbn [map accum total fold_right length] in *.
  - rewrite Z.add_0_r. reflexivity.
  - inversion Hl; subst. assert (Hy : - 2 ^ 15 <= y < 2 ^ 15) by (match goal with H : fits c_i16 y = true |- _ => apply fits_spec in H; exact H end).
    assert (Fx : fits c_i32 x = true) by (apply fits_spec; cbn [fst snd c_i32]; lia).
    assert (Fy : fits c_i32 y = true) by (apply fits_spec; cbn [fst snd c_i32]; lia).
    assert (Fs : fits c_i32 (x + y) = true) by (apply fits_spec; cbn [fst snd c_i32]; lia).
    unfold c_add at 1. rewrite (carith_gen c_i32) by (auto; reflexivity). rewrite cres_ok by auto. cbn [bind].
    unfold ccast. cbn [snd]. rewrite cconv_id by (auto; reflexivity). rewrite (IH (x + y) (B + 2 ^ 15)); auto; try lia.
    do 2 f_equal. fold (total l). lia.
Qed.
Lemma els_val (t : cty) R from a : els t R from a = map (pair t) (map (fun i => cconv t (lane (snd t) (Z.of_nat i) a)) (seq from (nl (snd t) R - from))).
Proof. unfold els, el. rewrite map_map. reflexivity. Qed.
Lemma els_fits (t : cty) n from a : 0 < snd t -> Forall (fun y => fits t y = true) (map (fun i => cconv t (lane (snd t) (Z.of_nat i) a)) (seq from n)).
Proof. intros. apply Forall_forall. intros x Hx. apply in_map_iff in Hx as (i & <- & _). apply cconv_fits; auto. Qed.
Lemma cconv_value (t : cty) x : 0 <= x < 2 ^ snd t -> cconv t x = value (fst t) (snd t) x.
Proof. intros H. unfold cconv, value. destruct (fst t); auto. apply wrap_small; auto. Qed.
Lemma els_sum (t : cty) R a : 0 < snd t -> (1 <= nl (snd t) R)%nat ->
  cconv t (lane (snd t) 0 a) + total (map (fun i => cconv t (lane (snd t) (Z.of_nat i) a)) (seq 1 (nl (snd t) R - 1))) = lsum (fst t) (snd t) (nl (snd t) R) a.
Proof.
  intros Hp Hn. unfold lsum, sumn. replace (nl (snd t) R) with (S (nl (snd t) R - 1)) at 2 by lia. cbn [seq map total fold_right].
  fold (total (map (fun i => value (fst t) (snd t) (lane (snd t) (Z.of_nat i) a)) (seq 1 (nl (snd t) R - 1)))).
  rewrite cconv_value by (apply lane_range; lia). f_equal. f_equal. apply map_ext. intros. apply cconv_value. apply lane_range. lia.
Qed.
Lemma els_lanes' (t : cty) va : 0 < snd t -> flat_map (els t 128 0) va = map (pair t) (map (value (fst t) (snd t)) (lanes (snd t) R128 va)).
Proof.
  intros Hp. induction va as [|a va IH]; [reflexivity|]. cbn [flat_map]. rewrite IH, lanes_cons, !map_app. f_equal.
  rewrite els_val, Nat.sub_0_r. f_equal. unfold elems. rewrite map_map. apply map_ext. intros. apply cconv_value. apply lane_range. lia.
Qed.
Lemma lanes_fits (t : cty) s va : 0 < snd t -> Forall (fun y => fits t y = true) (map (value (fst t) (snd t)) (lanes (snd t) s va)).
Proof.
  intros Hp. apply Forall_forall. intros x Hx. apply in_map_iff in Hx as (y & <- & Hy).
  assert (0 <= y < 2 ^ snd t).
  { unfold lanes in Hy. apply in_flat_map in Hy as (a & _ & Hy). unfold elems in Hy. apply in_map_iff in Hy as (i & <- & _). apply lane_range. lia. }
  rewrite <- cconv_value by auto. apply cconv_fits; auto.
Qed.
(** the additions of the loops *)
Lemma add_step (tr t : cty) : (tr = c_u16 \/ tr = c_i16) -> (t = c_u8 \/ t = c_i8) -> forall x y, fits tr x = true -> fits t y = true ->
  exists d, c_add (tr, x) (t, y) = Ok d /\ ccast tr d = (tr, cconv tr (x + y)).
Proof.
  intros Ht1 Ht2 x y Hx Hy. exists (c_int, x + y). apply fits_spec in Hx. apply fits_spec in Hy. split; [|reflexivity].
  assert (Hx' : - 2 ^ 16 <= x <= 2 ^ 16) by (destruct Ht1 as [-> | ->]; cbn [fst snd c_u16 c_i16] in Hx; lia).
  assert (Hy' : - 2 ^ 16 <= y <= 2 ^ 16) by (destruct Ht2 as [-> | ->]; cbn [fst snd c_u8 c_i8] in Hy; lia).
  unfold c_add. rewrite (carith_gen c_int).
  - apply cres_ok. apply fits_spec. cbn [fst snd c_int c_i32]. lia.
  - destruct Ht1 as [-> | ->], Ht2 as [-> | ->]; reflexivity.
  - reflexivity.
  - apply fits_spec. cbn [fst snd c_int c_i32]. lia.
  - apply fits_spec. cbn [fst snd c_int c_i32]. lia.
Qed.
Lemma add_step_u32 x y : fits c_u32 x = true -> fits c_u16 y = true -> exists d, c_add (c_u32, x) (c_u16, y) = Ok d /\ ccast c_u32 d = (c_u32, cconv c_u32 (x + y)).
Proof.
  intros Hx Hy. exists (c_u32, wrap 32 (x + y)). apply fits_spec in Hy. cbn [fst snd c_u16] in Hy. split.
  - unfold c_add. rewrite (carith_gen c_u32); auto; try reflexivity. apply fits_spec. cbn [fst snd c_u32]. lia.
  - unfold ccast. cbn [snd]. f_equal. unfold cconv. cbn [fst snd c_u32]. apply wrap_wrap.
Qed.
Lemma null_one (tr t : cty) a : 0 < snd tr -> 0 < snd t -> (1 <= nl (snd t) 128)%nat -> (forall x, fits t x = true -> fits tr (cconv tr x) = true /\ cg (snd tr) (cconv tr x) x) ->
  (forall x y, fits tr x = true -> fits t y = true -> exists d, c_add (tr, x) (t, y) = Ok d /\ ccast tr d = (tr, cconv tr (x + y))) ->
  yields (snd tr) (null_red1 tr t c_add 1 a) (lsum (fst t) (snd t) (nl (snd t) 128) a).
Proof.
  intros H1 H2 Hn Hc Hs. unfold null_red1, el, ccast. cbn [snd]. rewrite els_val.
  destruct (Hc (cconv t (lane (snd t) 0 a))) as [F C]; [apply cconv_fits; auto|].
  rewrite (accum_add tr t) by (auto using els_fits). cbn [bind snd]. eexists. split; [reflexivity|].
  eapply cg_trans; [apply cg_cconv; lia|]. rewrite <- els_sum by auto. apply cg_add; [lia|exact C|apply cg_refl].
Qed.
Lemma null_many (tr t : cty) va : 0 < snd tr -> 0 < snd t -> fits tr 0 = true ->
  (forall x y, fits tr x = true -> fits t y = true -> exists d, c_add (tr, x) (t, y) = Ok d /\ ccast tr d = (tr, cconv tr (x + y))) ->
  yields (snd tr) (null_redN tr t c_add 0 va) (total (map (value (fst t) (snd t)) (lanes (snd t) R128 va))).
Proof.
  intros H1 H2 F Hs. unfold null_redN. rewrite els_lanes' by auto. rewrite (accum_add tr t) by (auto using lanes_fits). cbn [bind snd].
  eexists. split; [reflexivity|]. apply cg_cconv. lia.
Qed.
Lemma lanes_len w s va : length (lanes w s va) = (length va * nl w (rbits s))%nat.
Proof. induction va as [|a va IH]; [reflexivity|]. rewrite lanes_cons, app_length, elems_length, IH. cbn [length]. lia. Qed.
Lemma null_many_s16 va : Z.of_nat (length va) < 2 ^ 13 -> yields 32 (null_redN c_i32 c_i16 c_add 0 va) (total (map (value true 16) (lanes 16 R128 va))).
Proof.
  intros Hl. unfold null_redN. rewrite els_lanes' by reflexivity. rewrite (accum_add_32 _ 0 0); try lia.
  - cbn [bind snd]. eexists. split; [reflexivity|]. apply cg_refl.
  - rewrite map_length. cbn [snd c_i16]. rewrite lanes_len. change (nl 16 (rbits R128)) with 8%nat. lia.
  - apply (lanes_fits c_i16). reflexivity.
Qed.
Lemma null_one_s16 a : yields 32 (null_red1 c_i32 c_i16 c_add 1 a) (lsum true 16 (nl 16 128) a).
Proof.
  unfold null_red1, el, ccast. cbn [snd]. rewrite els_val. cbn [snd c_i16].
  assert (F : fits c_i16 (cconv c_i16 (lane 16 0 a)) = true) by (apply cconv_fits; reflexivity).
  apply fits_spec in F. cbn [fst snd c_i16] in F.
  change (cconv c_i32 (cconv (true, 16) (lane 16 0 a))) with (cconv c_i32 (cconv c_i16 (lane 16 0 a))).
  rewrite (cconv_id c_i32) by (first [reflexivity | apply fits_spec; cbn [fst snd c_i32]; lia]).
  rewrite (accum_add_32 _ _ (2 ^ 15)).
  - cbn [bind snd]. eexists. split; [reflexivity|]. pose proof (els_sum c_i16 128 a eq_refl ltac:(vm_compute; lia)) as E. cbn [fst snd c_i16] in E. rewrite <- E. apply cg_refl.
  - lia.
  - lia.
  - rewrite map_length, seq_length. vm_compute. reflexivity.
  - apply (els_fits c_i16). reflexivity.
Qed.
