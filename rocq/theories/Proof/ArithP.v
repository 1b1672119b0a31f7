(** Addition, subtraction, saturation, negation. *)
From Verif Require Export Model.Arith Proof.BitwiseP.

(** ---------- tactics for typed C++ scalars at a literal width ---------- *)
Ltac fitz := apply fits_spec; cbn [fst snd c_int c_i32 c_u8 c_i8 c_u16 c_i16 c_u32 c_i64 c_u64 ut st wb] in *; lia.
(** name signed readings *)
Ltac gsgn :=
  repeat match goal with
  | |- context [sgn ?w ?x] =>
      let X := fresh "X" in let H := fresh "HX" in
      pose proof (sgn_range w x ltac:(reflexivity)) as H;
      let e := fresh "EX" in
      pose proof (wrap_sgn w x ltac:(reflexivity)) as e;
      set (X := sgn w x) in *; clearbody X
  end.
Ltac cnorm :=
  unfold st, ut in *; cbn [wb] in *;
  unfold cconv; cbn [fst snd] in *.
Ltac carr :=
  unfold c_add, c_sub, c_mul, c_and, c_or, c_xor;
  first [ rewrite carith_int by (first [reflexivity|fitz]) | rewrite carith_wide by (first [reflexivity|fitz]) ];
  first [ rewrite cres_u | rewrite cres_ok by fitz ]; cbn [bind].

Lemma wrap_eq_intro w x y k : x = y + k * 2 ^ w -> wrap w x = wrap w y.
Proof. intros. apply eq_mod_wrap. eauto. Qed.

(** ---------- scalar rungs ---------- *)
Section N.
  Variables (w : ew) (R : Z).
  Hypothesis HR : wok (wb w) R = true.

  Lemma null_add_ok a b : null_add (ut w) R a b = Ok (v2 (wb w) R Z.add a b).
  Proof.
    apply (nloop_v2 (ut w) R c_add); auto. change (snd (ut w)) with (wb w). intros x y Hx Hy.
    rewrite !u_cconv by auto. unfold c_add. rewrite (carith_p _ w) by auto.
    unfold pt. destruct (wb w <? 32) eqn:E.
    - rewrite cres_ok; [eexists; split; reflexivity|]. destruct w; try discriminate; fitz.
    - unfold ut. rewrite cres_u. eexists; split; [reflexivity|]. apply wrap_wrap.
  Qed.
  Lemma null_sub_ok a b : null_sub (ut w) R a b = Ok (v2 (wb w) R Z.sub a b).
  Proof.
    apply (nloop_v2 (ut w) R c_sub); auto. change (snd (ut w)) with (wb w). intros x y Hx Hy.
    rewrite !u_cconv by auto. unfold c_sub. rewrite (carith_p _ w) by auto.
    unfold pt. destruct (wb w <? 32) eqn:E.
    - rewrite cres_ok; [eexists; split; reflexivity|]. destruct w; try discriminate; fitz.
    - unfold ut. rewrite cres_u. eexists; split; [reflexivity|]. apply wrap_wrap.
  Qed.
End N.

(** INT_MIN of a lane *)
Definition imin (w : ew) : Z := 2 ^ (wb w - 1).

Lemma wrap_opp_sgn w x : 0 < w -> wrap w (- sgn w x) = wrap w (- x).
Proof.
  intros. pose proof (proj1 (eq_mod_wrap w (sgn w x) x)) as [k E]; [apply wrap_sgn; auto|].
  apply (wrap_eq_intro w _ _ (-k)). rewrite E. ring.
Qed.
Lemma sgn_imin w x : 0 <= x < 2 ^ wb w -> sgn (wb w) x = - 2 ^ (wb w - 1) -> x = imin w.
Proof.
  intros Hx E. unfold imin, sgn in *. change (x mod 2 ^ wb w) with (wrap (wb w) x) in E.
  rewrite (wrap_small _ _ Hx) in E.
  destruct w; cbn [wb] in *; match type of E with context [if ?c then _ else _] => destruct c eqn:F end; lia.
Qed.
Lemma null_neg_ok w R a : wok (wb w) R = true ->
  (wb w < 32 \/ forall i, 0 <= i < R / wb w -> lane (wb w) i a <> imin w) ->
  null_neg (st w) R a = Ok (v1 (wb w) R Z.opp a).
Proof.
  intros HR Hm. unfold null_neg, v1. apply (nloop_pack (st w)); auto.
  change (snd (st w)) with (wb w). intros i Hi. unfold el, c_neg. change (snd (st w)) with (wb w).
  pose proof (lane_range (wb w) i a ltac:(auto)) as Hx. revert Hm. set (x := lane (wb w) i a) in *. intros Hm.
  change (cconv (st w) x) with (sgn (wb w) x).
  pose proof (sgn_range (wb w) x ltac:(auto)) as HS.
  assert (wb w < 32 \/ sgn (wb w) x <> - 2 ^ (wb w - 1)) as Hm'.
  { destruct Hm as [Hm|Hm]; auto. right. intros E. apply (Hm i Hi). apply sgn_imin; auto. }
  assert (exists t, cres (fst (promote (st w, sgn (wb w) x))) (- snd (promote (st w, sgn (wb w) x)))
            = Ok (t, - sgn (wb w) x)) as [t Et].
  { exists (if wb w <? 32 then c_int else st w).
    destruct w; cbn [wb] in *; cbn [promote fst snd st wb Z.ltb Z.compare Pos.compare Pos.compare_cont] in *;
    apply cres_ok; fitz. }
  rewrite Et. eexists; split; [reflexivity|]. cbn [snd]. apply wrap_opp_sgn; auto.
Qed.

Lemma sat_nloop_s w R op f a b : wok (wb w) R = true -> wb w < 32 ->
  (forall X Y, - 2 ^ (wb w - 1) <= X < 2 ^ (wb w - 1) -> - 2 ^ (wb w - 1) <= Y < 2 ^ (wb w - 1) ->
     op (c_int, X) (st w, Y) = Ok (c_int, f X Y) /\ fits c_int (f X Y) = true) ->
  nloop (st w) R (fun i => let* v := op (ccast c_i32 (el (st w) a i)) (el (st w) b i) in Ok (c_saturate (st w) v))
  = Ok (v2 (wb w) R (fun x y => sats (wb w) (f (sgn (wb w) x) (sgn (wb w) y))) a b).
Proof.
  intros HR Hw Hop. apply (nloop_v2 (st w) R (fun x y => let* v := op (ccast c_i32 x) y in Ok (c_saturate (st w) v))); auto.
  change (snd (st w)) with (wb w). intros x y Hx Hy. unfold ccast. cbn [snd].
  change (cconv (st w) x) with (sgn (wb w) x). change (cconv (st w) y) with (sgn (wb w) y).
  pose proof (sgn_range (wb w) x ltac:(auto)) as HX. pose proof (sgn_range (wb w) y ltac:(auto)) as HY.
  set (X := sgn (wb w) x) in *. set (Y := sgn (wb w) y) in *. clearbody X Y.
  rewrite cconv_id by (try reflexivity; destruct w; cbn [wb] in Hw; try lia; fitz).
  change c_i32 with c_int. destruct (Hop X Y HX HY) as (-> & HF). cbn [bind]. eexists; split; [reflexivity|].
  set (v := f X Y) in *. clearbody v.
  unfold c_saturate, c_lt, c_gt.
  assert (- 2 ^ (wb w - 1) < 2 ^ (wb w - 1)) by (destruct w; cbn; lia).
  apply fits_spec in HF. cbn [c_int c_i32 fst snd] in HF.
  assert (forall z, - 2 ^ (wb w - 1) <= z < 2 ^ (wb w - 1) -> fits c_int z = true) as Hz.
  { intros. destruct w; cbn [wb] in *; try lia; fitz. }
  change (fst (st w)) with true. change (snd (st w)) with (wb w). cbn match. cbn [ccast snd].
  rewrite (c_cmp_gen c_int Z.ltb) by (first [reflexivity|solve [fitz]|apply Hz; lia]).
  unfold sats. change (cconv (st w)) with (sgn (wb w)).
  assert (2 ^ (wb w - 1) - 1 = Z.pred (2 ^ (wb w - 1))) by lia.
  destruct (Z.ltb_spec v (- 2 ^ (wb w - 1))).
  - rewrite (c_cmp_gen c_int Z.gtb) by (first [reflexivity|apply Hz; lia]). rewrite Z.gtb_ltb.
    destruct (Z.ltb_spec (2 ^ (wb w - 1) - 1) (- 2 ^ (wb w - 1))); [lia|].
    cbn [snd]. rewrite wrap_sgn by auto. reflexivity.
  - rewrite (c_cmp_gen c_int Z.gtb) by (first [reflexivity|solve [fitz]|apply Hz; lia]). rewrite Z.gtb_ltb.
    destruct (Z.ltb_spec (2 ^ (wb w - 1) - 1) v); cbn [snd]; rewrite wrap_sgn by auto; reflexivity.
Qed.
Lemma sat_nloop_u w R op f a b : wok (wb w) R = true -> wb w < 32 ->
  (forall X Y, 0 <= X < 2 ^ wb w -> 0 <= Y < 2 ^ wb w ->
     op (c_int, X) (ut w, Y) = Ok (c_int, f X Y) /\ fits c_int (f X Y) = true) ->
  nloop (ut w) R (fun i => let* v := op (ccast c_i32 (el (ut w) a i)) (el (ut w) b i) in Ok (c_saturate (ut w) v))
  = Ok (v2 (wb w) R (fun x y => satu (wb w) (f x y)) a b).
Proof.
  intros HR Hw Hop. apply (nloop_v2 (ut w) R (fun x y => let* v := op (ccast c_i32 x) y in Ok (c_saturate (ut w) v))); auto.
  change (snd (ut w)) with (wb w). intros x y Hx Hy. unfold ccast. cbn [snd].
  rewrite !u_cconv by auto.
  rewrite cconv_id by (try reflexivity; destruct w; cbn [wb] in Hw; try lia; fitz).
  change c_i32 with c_int. destruct (Hop x y Hx Hy) as (-> & HF). cbn [bind]. eexists; split; [reflexivity|].
  set (v := f x y) in *. clearbody v.
  unfold c_saturate, c_lt, c_gt.
  apply fits_spec in HF. cbn [c_int c_i32 fst snd] in HF.
  assert (forall z, 0 <= z < 2 ^ wb w -> fits c_int z = true) as Hz.
  { intros. destruct w; cbn [wb] in *; try lia; fitz. }
  change (fst (ut w)) with false. change (snd (ut w)) with (wb w). cbn match. cbn [ccast snd].
  rewrite (c_cmp_gen c_int Z.ltb) by (first [reflexivity|solve [fitz]|apply Hz; lia]).
  unfold satu. change (cconv (ut w)) with (wrap (wb w)).
  destruct (Z.ltb_spec v 0).
  - rewrite (c_cmp_gen c_int Z.gtb) by (first [reflexivity|apply Hz; lia]). rewrite Z.gtb_ltb.
    destruct (Z.ltb_spec (2 ^ wb w - 1) 0); [lia|].
    cbn [snd]. rewrite wrap_wrap. reflexivity.
  - rewrite (c_cmp_gen c_int Z.gtb) by (first [reflexivity|solve [fitz]|apply Hz; lia]). rewrite Z.gtb_ltb.
    destruct (Z.ltb_spec (2 ^ wb w - 1) v); cbn [snd]; rewrite wrap_wrap; reflexivity.
Qed.

(** ---------- instructions ---------- *)
Theorem i_add_ok A w s a b : valid_arch A = true -> avail_int A (wb w) s = true ->
  i_add A w s a b = Ok (v2 (wb w) (rbits s) Z.add a b).
Proof.
  intros HV HA. unfold i_add.
  destruct s, w; cbn [nat512] in *; lad HV HA ltac:(idtac; lazymatch goal with
    | |- Ok _ = Ok _ => reflexivity | |- _ => apply null_add_ok; auto end).
Qed.
Theorem i_sub_ok A w s a b : valid_arch A = true -> avail_int A (wb w) s = true ->
  i_sub A w s a b = Ok (v2 (wb w) (rbits s) Z.sub a b).
Proof.
  intros HV HA. unfold i_sub.
  destruct s, w; cbn [nat512] in *; lad HV HA ltac:(idtac; lazymatch goal with
    | |- Ok _ = Ok _ => reflexivity | |- _ => apply null_sub_ok; auto end).
Qed.

Lemma sub_zero_neg w R a : wok w R = true -> v2 w R Z.sub 0 a = v1 w R Z.opp a.
Proof.
  intros H. apply pack_ext; auto. intros i Hi. rewrite lane_of_zero. reflexivity.
Qed.
Theorem i_neg_ok A w s a : valid_arch A = true -> avail_int A (wb w) s = true ->
  (scalar A w s = true -> 32 <= wb w -> forall i, 0 <= i < rbits s / wb w -> lane (wb w) i a <> imin w) ->
  i_neg A w s a = Ok (v1 (wb w) (rbits s) Z.opp a).
Proof.
  intros HV HA Hm.
  assert (forall s', avail_int A (wb w) s' = true -> i_sub A w s' 0 a = Ok (v1 (wb w) (rbits s') Z.opp a)) as Hs.
  { intros. rewrite i_sub_ok by auto. rewrite sub_zero_neg by auto. reflexivity. }
  unfold i_neg. unfold scalar in Hm.
  destruct s, w; cbn [nat512] in *;
  lad HV HA ltac:(first [ apply (Hs R128); reflexivity | apply (Hs R256); exact HA | apply (Hs R512); exact HA
    | lazymatch goal with |- Ok _ = Ok _ => f_equal; unfold vnegq; apply v1_ext; [reflexivity|]; intros; apply wrap_opp_sgn; reflexivity end
    | apply null_neg_ok; [auto|left; cbn; lia]
    | apply null_neg_ok; [auto|right; apply Hm; [rw_flags; reflexivity | cbn; lia] ] ]).
Qed.

Section Sat.
  Variables (A : arch) (w : ew) (s : rsz).
  Hypotheses (HV : valid_arch A = true) (HA : avail_int A (wb w) s = true) (Hw : wb w < 32).
  Theorem i_iadd_sat_ok a b : i_iadd_sat A w s a b =
    Ok (v2 (wb w) (rbits s) (fun x y => sats (wb w) (sgn (wb w) x + sgn (wb w) y)) a b).
  Proof.
    unfold i_iadd_sat, sat_ladder.
    destruct s, w; cbn [wb] in Hw; try lia; lad HV HA ltac:(idtac; lazymatch goal with
    | |- Ok _ = Ok _ => reflexivity
    | |- _ => unfold null_add_sat; apply (sat_nloop_s _ _ c_add Z.add); [reflexivity|assumption|];
        cbn [wb]; intros X Y HX HY; unfold c_add; rewrite carith_gen with (t := c_int) by (first [reflexivity|fitz]);
        split; [apply cres_ok|]; fitz end).
  Qed.
  Theorem i_isub_sat_ok a b : i_isub_sat A w s a b =
    Ok (v2 (wb w) (rbits s) (fun x y => sats (wb w) (sgn (wb w) x - sgn (wb w) y)) a b).
  Proof.
    unfold i_isub_sat, sat_ladder.
    destruct s, w; cbn [wb] in Hw; try lia; lad HV HA ltac:(idtac; lazymatch goal with
    | |- Ok _ = Ok _ => reflexivity
    | |- _ => unfold null_sub_sat; apply (sat_nloop_s _ _ c_sub Z.sub); [reflexivity|assumption|];
        cbn [wb]; intros X Y HX HY; unfold c_sub; rewrite carith_gen with (t := c_int) by (first [reflexivity|fitz]);
        split; [apply cres_ok|]; fitz end).
  Qed.
  Theorem i_uadd_sat_ok a b : i_uadd_sat A w s a b =
    Ok (v2 (wb w) (rbits s) (fun x y => satu (wb w) (x + y)) a b).
  Proof.
    unfold i_uadd_sat, sat_ladder.
    destruct s, w; cbn [wb] in Hw; try lia; lad HV HA ltac:(idtac; lazymatch goal with
    | |- Ok _ = Ok _ => reflexivity
    | |- _ => unfold null_add_sat; apply (sat_nloop_u _ _ c_add Z.add); [reflexivity|assumption|];
        cbn [wb]; intros X Y HX HY; unfold c_add; rewrite carith_gen with (t := c_int) by (first [reflexivity|fitz]);
        split; [apply cres_ok|]; fitz end).
  Qed.
  Theorem i_usub_sat_ok a b : i_usub_sat A w s a b =
    Ok (v2 (wb w) (rbits s) (fun x y => satu (wb w) (x - y)) a b).
  Proof.
    unfold i_usub_sat, sat_ladder.
    destruct s, w; cbn [wb] in Hw; try lia; lad HV HA ltac:(idtac; lazymatch goal with
    | |- Ok _ = Ok _ => reflexivity
    | |- _ => unfold null_sub_sat; apply (sat_nloop_u _ _ c_sub Z.sub); [reflexivity|assumption|];
        cbn [wb]; intros X Y HX HY; unfold c_sub; rewrite carith_gen with (t := c_int) by (first [reflexivity|fitz]);
        split; [apply cres_ok|]; fitz end).
  Qed.
End Sat.
