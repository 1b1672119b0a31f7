(** Facts about the C++ scalar semantics, and loops of the scalar backend seen
    lane-wise. *)
From Verif Require Export Base.Cpp Base.Isa Model.Null.


Lemma fits_spec (t : cty) x : fits t x = true <->
  if fst t then - 2 ^ (snd t - 1) <= x < 2 ^ (snd t - 1) else 0 <= x < 2 ^ snd t.
Proof. unfold fits. destruct (fst t); rewrite andb_true_iff, Z.leb_le, Z.ltb_lt; tauto. Qed.

Lemma cconv_id (t : cty) x : 0 < snd t -> fits t x = true -> cconv t x = x.
Proof.
  intros Hw H. apply fits_spec in H. unfold cconv. destruct (fst t).
  - apply sgn_id; auto.
  - apply wrap_small; auto.
Qed.

Lemma cconv_fits (t : cty) x : 0 < snd t -> fits t (cconv t x) = true.
Proof.
  intros Hw. apply fits_spec. unfold cconv. destruct (fst t).
  - apply sgn_range; auto.
  - apply wrap_range; lia.
Qed.

Lemma wrap_cconv (t : cty) x : 0 < snd t -> wrap (snd t) (cconv t x) = wrap (snd t) x.
Proof.
  intros. unfold cconv. destruct (fst t); [apply wrap_sgn; auto|apply wrap_wrap].
Qed.

(** both operands narrower than int *)
Lemma carith_int f (t1 t2 : cty) x y : snd t1 <? 32 = true -> snd t2 <? 32 = true ->
  fits c_int x = true -> fits c_int y = true ->
  carith f (t1, x) (t2, y) = cres c_int (f x y).
Proof.
  intros H1 H2 Hx Hy. unfold carith, promote. cbn [fst snd]. rewrite H1, H2. cbn [fst snd].
  change (usual c_int c_int) with c_int. rewrite !cconv_id; auto; reflexivity.
Qed.
(** both operands of the same type, int or wider *)
Lemma carith_wide f (t : cty) x y : snd t <? 32 = false -> fits t x = true -> fits t y = true ->
  carith f (t, x) (t, y) = cres t (f x y).
Proof.
  intros H1 Hx Hy. unfold carith, promote. cbn [fst snd]. rewrite H1. cbn [fst snd].
  unfold usual. rewrite Z.eqb_refl, Bool.andb_diag.
  destruct t as [s w]; cbn [fst snd] in *. apply Z.ltb_ge in H1.
  rewrite !cconv_id; auto; cbn; lia.
Qed.
(** any operands whose common type is t and which are already values of it *)
Lemma carith_gen (t : cty) f (t1 t2 : cty) x y :
  usual (fst (promote (t1, x))) (fst (promote (t2, y))) = t -> 0 < snd t ->
  fits t x = true -> fits t y = true ->
  carith f (t1, x) (t2, y) = cres t (f x y).
Proof.
  intros Hu Hw Hx Hy. unfold carith. rewrite Hu.
  assert (snd (promote (t1, x)) = x) as -> by (unfold promote; destruct (_ <? _); reflexivity).
  assert (snd (promote (t2, y)) = y) as -> by (unfold promote; destruct (_ <? _); reflexivity).
  rewrite !cconv_id; auto.
Qed.
Lemma c_cmp_gen (t : cty) f (t1 t2 : cty) x y :
  usual (fst (promote (t1, x))) (fst (promote (t2, y))) = t -> 0 < snd t ->
  fits t x = true -> fits t y = true ->
  c_cmp f (t1, x) (t2, y) = f x y.
Proof.
  intros Hu Hw Hx Hy. unfold c_cmp. rewrite Hu.
  assert (snd (promote (t1, x)) = x) as -> by (unfold promote; destruct (_ <? _); reflexivity).
  assert (snd (promote (t2, y)) = y) as -> by (unfold promote; destruct (_ <? _); reflexivity).
  rewrite !cconv_id; auto.
Qed.

Lemma cres_ok (t : cty) x : fits t x = true -> cres t x = Ok (t, x).
Proof.
  intros H. unfold cres. rewrite H. destruct (fst t) eqn:E; [reflexivity|].
  apply fits_spec in H. rewrite E in H. rewrite wrap_small; auto.
Qed.
Lemma cres_u w x : cres (false, w) x = Ok ((false, w), wrap w x).
Proof. reflexivity. Qed.

(** Comparison of two elements of the same type compares their values. *)
Lemma c_cmp_el (t : cty) f x y : 0 < snd t -> snd t <= 64 ->
  c_cmp f (t, cconv t x) (t, cconv t y) = f (cconv t x) (cconv t y).
Proof.
  intros Hw Hw2. destruct (Z.ltb_spec (snd t) 32) as [H|H].
  - apply (c_cmp_gen c_int); try reflexivity.
    + unfold promote. cbn [fst snd]. apply Z.ltb_lt in H. rewrite H. reflexivity.
    + pose proof (cconv_fits t x Hw) as E. apply fits_spec in E. apply fits_spec. cbn [fst snd c_int c_i32].
      assert (2 ^ snd t <= 2 ^ 31) by (apply Z.pow_le_mono_r; lia).
      assert (2 ^ (snd t - 1) <= 2 ^ 31) by (apply Z.pow_le_mono_r; lia).
      destruct (fst t); lia.
    + pose proof (cconv_fits t y Hw) as E. apply fits_spec in E. apply fits_spec. cbn [fst snd c_int c_i32].
      assert (2 ^ snd t <= 2 ^ 31) by (apply Z.pow_le_mono_r; lia).
      assert (2 ^ (snd t - 1) <= 2 ^ 31) by (apply Z.pow_le_mono_r; lia).
      destruct (fst t); lia.
  - apply (c_cmp_gen t); auto using cconv_fits.
    unfold promote. cbn [fst snd]. destruct (Z.ltb_spec (snd t) 32); [lia|]. cbn [fst].
    unfold usual. rewrite Z.eqb_refl, Bool.andb_diag. destruct t; reflexivity.
Qed.

(** Loops. *)
Lemma nloop_pack (t : cty) R f g : wok (snd t) R = true ->
  (forall i, 0 <= i < R / snd t -> exists v, f i = Ok v /\ wrap (snd t) (snd v) = wrap (snd t) (g i)) ->
  nloop t R f = Ok (pack (snd t) R g).
Proof.
  intros Hw H. destruct (wok_spec _ _ Hw) as (Hp & _ & _ & En).
  unfold nloop, pack.
  rewrite (mkM_ok _ _ _ (fun i => wrap (snd t) (g i))).
  - f_equal. apply mk_ext. intros. apply wrap_wrap.
  - intros i Hi. destruct (H i) as (v & -> & E); [lia|]. cbn [bind]. unfold sto. rewrite E. reflexivity.
Qed.
Lemma nloop_v1 (t : cty) R f g a : wok (snd t) R = true ->
  (forall x, 0 <= x < 2 ^ snd t ->
     exists v, f (t, cconv t x) = Ok v /\ wrap (snd t) (snd v) = wrap (snd t) (g x)) ->
  nloop t R (fun i => f (el t a i)) = Ok (v1 (snd t) R g a).
Proof.
  intros Hw H. apply nloop_pack; auto. intros i Hi. apply H. apply lane_range.
  destruct (wok_spec _ _ Hw); lia.
Qed.
Lemma nloop_v2 (t : cty) R f g a b : wok (snd t) R = true ->
  (forall x y, 0 <= x < 2 ^ snd t -> 0 <= y < 2 ^ snd t ->
     exists v, f (t, cconv t x) (t, cconv t y) = Ok v /\ wrap (snd t) (snd v) = wrap (snd t) (g x y)) ->
  nloop t R (fun i => f (el t a i) (el t b i)) = Ok (v2 (snd t) R g a b).
Proof.
  intros Hw H. apply nloop_pack; auto. intros i Hi.
  destruct (wok_spec _ _ Hw). apply H; apply lane_range; lia.
Qed.

(** Scalars of unsigned element type and int: closed under the bitwise operations. *)
Lemma u_cconv w x : 0 <= x < 2 ^ wb w -> cconv (ut w) x = x.
Proof. intros. apply wrap_small; auto. Qed.
Lemma u_fits_int w x : wb w <? 32 = true -> 0 <= x < 2 ^ wb w -> fits c_int x = true.
Proof.
  intros Hw Hx. apply fits_spec. cbn [fst snd c_int c_i32].
  destruct w; try discriminate; cbn [wb] in Hx; lia.
Qed.
(** the promoted type of an unsigned element type *)
Definition pt (w : ew) : cty := if wb w <? 32 then c_int else ut w.
Lemma pt_fits w x : 0 <= x < 2 ^ wb w -> fits (pt w) x = true.
Proof.
  intros Hx. unfold pt. destruct (wb w <? 32) eqn:E.
  - eapply u_fits_int; eauto.
  - apply fits_spec. exact Hx.
Qed.
Lemma promote_ut w x : promote (ut w, x) = (pt w, x).
Proof. unfold promote, pt, ut. cbn [fst snd]. destruct (wb w <? 32); reflexivity. Qed.
Lemma promote_pt w x : promote (pt w, x) = (pt w, x).
Proof. unfold promote, pt, ut. destruct w; reflexivity. Qed.
Lemma usual_diag t : usual t t = t.
Proof. unfold usual. rewrite Z.eqb_refl, Bool.andb_diag. destruct t; reflexivity. Qed.
Lemma pt_pos w : 0 < snd (pt w).
Proof. destruct w; reflexivity. Qed.
#[global] Hint Resolve pt_pos pt_fits : core.
(** operands of the element type or already promoted *)
Definition upr (w : ew) (t : cty) : Prop := t = ut w \/ t = pt w.
Lemma promote_upr w t x : upr w t -> promote (t, x) = (pt w, x).
Proof. intros [->| ->]; [apply promote_ut|apply promote_pt]. Qed.
Lemma upr_ut w : upr w (ut w). Proof. left; reflexivity. Qed.
Lemma upr_pt w : upr w (pt w). Proof. right; reflexivity. Qed.
#[global] Hint Resolve upr_ut upr_pt : core.
Lemma carith_p f w t1 t2 x y : upr w t1 -> upr w t2 ->
  fits (pt w) x = true -> fits (pt w) y = true ->
  carith f (t1, x) (t2, y) = cres (pt w) (f x y).
Proof.
  intros H1 H2 Hx Hy. apply carith_gen; auto.
  rewrite (promote_upr w), (promote_upr w) by auto. apply usual_diag.
Qed.
Lemma carith_u f w t1 t2 x y : upr w t1 -> upr w t2 ->
  0 <= x < 2 ^ wb w -> 0 <= y < 2 ^ wb w -> 0 <= f x y < 2 ^ wb w ->
  carith f (t1, x) (t2, y) = Ok (pt w, f x y).
Proof. intros. rewrite (carith_p f w) by auto. apply cres_ok. auto. Qed.
