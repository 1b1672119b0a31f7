(** shuffle4x2 of 32-bit elements selects the lanes it should, for all 4096 selector lists. *)
From Verif Require Export Proof.PermuteP Model.Shuf4x2.

Definition x4 (k x0 x1 x2 x3 : Z) : Z := if k =? 0 then x0 else if k =? 1 then x1 else if k =? 2 then x2 else x3.
Lemma i2_mask x0 x1 x2 x3 k : 0 <= x0 < 4 -> 0 <= x1 < 4 -> 0 <= x2 < 4 -> 0 <= x3 < 4 -> 0 <= k < 4 ->
  i2 (mask_4x4 x0 x1 x2 x3) k = x4 k x0 x1 x2 x3.
Proof. intros. apply Z.eqb_eq. enum. Qed.
Lemma tb_mask R x0 x1 x2 x3 g k : (R = 128 \/ R = 256 \/ R = 512) ->
  0 <= x0 < 2 -> 0 <= x1 < 2 -> 0 <= x2 < 2 -> 0 <= x3 < 2 -> 0 <= g < R / 128 -> 0 <= k < 4 ->
  Z.testbit (mask_4x2_R R x0 x1 x2 x3) (4 * g + k) = (x4 k x0 x1 x2 x3 =? 1).
Proof.
  intros [-> | [-> | ->]] H0 H1 H2 H3 Hg Hk; apply eqb_prop.
  all: [> change (128 / 128) with 1 in Hg | change (256 / 128) with 2 in Hg | change (512 / 128) with 4 in Hg ]; enum.
Qed.

Section R.
  Variable R : Z.
  Hypothesis HR : R = 128 \/ R = 256 \/ R = 512.
  Lemma gk : gok 32 R 4 = true.
  Proof. destruct HR as [-> | [-> | ->]]; reflexivity. Qed.
  Lemma gw : wok 32 R = true.
  Proof. destruct HR as [-> | [-> | ->]]; reflexivity. Qed.
  Lemma g128 : R / (4 * 32) = R / 128.
  Proof. destruct HR as [-> | [-> | ->]]; reflexivity. Qed.

  Lemma shps x0 x1 x2 x3 a b : 0 <= x0 < 4 -> 0 <= x1 < 4 -> 0 <= x2 < 4 -> 0 <= x3 < 4 ->
    mm_shuffle_ps R (mask_4x4 x0 x1 x2 x3) a b =
    lsh 32 R 4 (fun k => if k <? 2 then fromA (x4 k x0 x1 x2 x3) else fromB (x4 k x0 x1 x2 x3)) [a; b].
  Proof. intros. apply lsh_ext; [apply gk|]. intros k Hk. rewrite i2_mask by auto. reflexivity. Qed.
  Lemma shepi x0 x1 x2 x3 a : 0 <= x0 < 4 -> 0 <= x1 < 4 -> 0 <= x2 < 4 -> 0 <= x3 < 4 ->
    mm_shuffle_epi32 R (mask_4x4 x0 x1 x2 x3) a = lsh 32 R 4 (fun k => fromA (x4 k x0 x1 x2 x3)) [a].
  Proof. intros. apply lsh_ext; [apply gk|]. intros k Hk. rewrite i2_mask by auto. reflexivity. Qed.
  Lemma blend_gen m (p : Z -> bool) a b : 
    (forall g k, 0 <= g < R / 128 -> 0 <= k < 4 -> Z.testbit m (4 * g + k) = p k) ->
    mm_blend 32 R m a b = lsh 32 R 4 (fun k => if p k then fromB k else fromA k) [a; b].
  Proof.
    intros HP. apply eq_lsh; [apply gk|apply pack_reg, gw|]. intros g k Hg Hk. rewrite g128 in Hg.
    unfold mm_blend. assert (R / 32 = 4 * (R / 128)) as E by (destruct HR as [-> | [-> | ->]]; reflexivity).
    rewrite lane_pack by (first [apply gw|lia]). rewrite HP by auto. rewrite wrap_if, !wrap_lane.
    destruct (p k); reflexivity.
  Qed.
  Lemma blendx x0 x1 x2 x3 a b : 0 <= x0 < 2 -> 0 <= x1 < 2 -> 0 <= x2 < 2 -> 0 <= x3 < 2 ->
    mm_blend 32 R (mask_4x2_R R x0 x1 x2 x3) a b =
    lsh 32 R 4 (fun k => if x4 k x0 x1 x2 x3 =? 1 then fromB k else fromA k) [a; b].
  Proof. intros. apply blend_gen. intros. apply tb_mask; auto. Qed.
  Lemma maskm_blend m a b : mm_maskm 32 R a m b = mm_blend 32 R m a b.
  Proof. reflexivity. Qed.
End R.
  Lemma select2 R (HR : R = 128 \/ R = 256 \/ R = 512) s0 s1 a b : 0 <= s0 < 8 -> 0 <= s1 < 8 ->
    select2_hi R s0 s1 a b = lsh 32 R 4 (fun k => if (s0 =? k + 4) || (s1 =? k + 4) then fromB k else fromA k) [a; b].
  Proof.
    intros H0 H1. unfold select2_hi. destruct HR as [-> | [-> | ->]]; cbn [Z.eqb Pos.eqb]; (apply blend_gen; [auto|]);
      intros g k Hg Hk; apply eqb_prop; [change (128 / 128) with 1 in Hg | change (256 / 128) with 2 in Hg | change (512 / 128) with 4 in Hg ];
      enum.
  Qed.

#[global] Hint Resolve gk gw : core.

Ltac eight s H := let E := fresh in
  assert (s = 0 \/ s = 1 \/ s = 2 \/ s = 3 \/ s = 4 \/ s = 5 \/ s = 6 \/ s = 7) as E by lia; clear H;
  destruct E as [E|[E|[E|[E|[E|[E|[E|E]]]]]]]; subst s.
(** nested selections, described *)
Inductive tree := Arg (m : nat) | N1 (L : Z -> src) (x : tree) | N2 (L : Z -> src) (x y : tree).
Fixpoint tev (w R n : Z) (env : list Z) (t : tree) : Z :=
  match t with
  | Arg m => nth m env 0
  | N1 L x => lsh w R n L [tev w R n env x]
  | N2 L x y => lsh w R n L [tev w R n env x; tev w R n env y]
  end.
Fixpoint tsel (n : Z) (t : tree) (k : Z) : option (nat * Z) :=
  match t with
  | Arg m => Some (m, k)
  | N1 L x => match L k with
              | Some (O, j) => if (0 <=? j) && (j <? n) then tsel n x j else None
              | _ => None end
  | N2 L x y => match L k with
                | Some (O, j) => if (0 <=? j) && (j <? n) then tsel n x j else None
                | Some (S O, j) => if (0 <=? j) && (j <? n) then tsel n y j else None
                | _ => None end
  end.
Lemma tsel_ok w R n env t g : gok w R n = true -> 0 <= g < R / (n * w) ->
  forall k m j, 0 <= k < n -> tsel n t k = Some (m, j) ->
  lane w (n * g + k) (tev w R n env t) = lane w (n * g + j) (nth m env 0).
Proof.
  intros HG Hg. induction t as [m'|L x IH|L x IHx y IHy]; intros k m j Hk E; cbn [tsel tev] in *.
  - injection E as -> ->. reflexivity.
  - rewrite lane_lsh by auto. destruct (L k) as [[[|i] q]|]; try discriminate.
    destruct (Z.leb_spec 0 q), (Z.ltb_spec q n); try discriminate. cbn [nth]. apply IH; auto.
  - rewrite lane_lsh by auto. destruct (L k) as [[[|[|i]] q]|]; try discriminate;
    destruct (Z.leb_spec 0 q), (Z.ltb_spec q n); try discriminate; cbn [nth]; [apply IHx|apply IHy]; auto.
Qed.
Lemma tev_lsh w R n env t M : gok w R n = true -> reg R (tev w R n env t) ->
  (forall k, 0 <= k < n -> M k <> None /\ tsel n t k = M k) -> tev w R n env t = lsh w R n M env.
Proof.
  intros HG HR HE. apply eq_lsh; auto. intros g k Hg Hk. destruct (HE k Hk) as [HN E].
  destruct (M k) as [[m j]|]; [|contradiction]. apply tsel_ok; auto.
Qed.
Ltac reif a b e := lazymatch e with
  | a => constr:(Arg 0) | b => constr:(Arg 1)
  | lsh _ _ _ ?L [?x; ?y] => let tx := reif a b x in let ty := reif a b y in constr:(N2 L tx ty)
  | lsh _ _ _ ?L [?x] => let tx := reif a b x in constr:(N1 L tx)
  end.
(** goal: e = lsh 32 R 4 M [a; b]; leaves M k <> None /\ tsel t k = M k for the four k *)
Ltac tr4 := lazymatch goal with |- ?e = lsh ?w ?R ?n ?M [?a; ?b] =>
  let t := reif a b e in
  change (tev w R n [a; b] t = lsh w R n M [a; b]); apply tev_lsh;
  [apply gk; assumption | apply lsh_reg, gw; assumption
  | let k := fresh "k" in let Hk := fresh "Hk" in intros k Hk; four k Hk ] end.
Ltac tdone := split; [discriminate|lazy; reflexivity].
Ltac m4 := first [ apply Z.mod_pos_bound; lia | lia
  | split; [apply Z.div_pos; lia|apply Z.div_lt_upper_bound; lia]
  | unfold qu; match goal with |- context [if ?c then _ else _] => destruct c end; lia ].
Ltac k4 s0 H0 s1 H1 s2 H2 s3 H3 :=
  tr4; [eight s0 H0|eight s1 H1|eight s2 H2|eight s3 H3]; first [ exfalso; lia | tdone ].

Section F.
  Variables (R s0 s1 s2 s3 a b : Z).
  Hypothesis HR : R = 128 \/ R = 256 \/ R = 512.
  Hypotheses (B0 : 0 <= s0 < 8) (B1 : 0 <= s1 < 8) (B2 : 0 <= s2 < 8) (B3 : 0 <= s3 < 8).
  Let want := lsh 32 R 4 (p_shuffle4x2 s0 s1 s2 s3) [a; b].
  Let sh := mm_shuffle_ps R.
  Lemma f6 : s0 < 4 -> s1 < 4 -> 4 <= s2 -> 4 <= s3 -> sh (mask_4x4 s0 s1 (s2 - 4) (s3 - 4)) a b = want.
  Proof. intros. unfold sh, want. rewrite shps by (auto; lia). k4 s0 B0 s1 B1 s2 B2 s3 B3. Qed.
  Lemma f7 : 4 <= s0 -> 4 <= s1 -> s2 < 4 -> s3 < 4 -> sh (mask_4x4 (s0 - 4) (s1 - 4) s2 s3) b a = want.
  Proof. intros. unfold sh, want. rewrite shps by (auto; lia). k4 s0 B0 s1 B1 s2 B2 s3 B3. Qed.
  Lemma f10 : 4 <= s2 -> 4 <= s3 ->
    sh (mask_4x4 (qu (s0 / 4) 2 0) (qu (s1 / 4) 3 1) (s2 - 4) (s3 - 4))
       (sh (mask_4x4 (s0 mod 4) (s1 mod 4) (s0 mod 4) (s1 mod 4)) a b) b = want.
  Proof. intros. unfold sh, want. rewrite !shps by (auto; m4). k4 s0 B0 s1 B1 s2 B2 s3 B3. Qed.
  Lemma f11 : s2 < 4 -> s3 < 4 ->
    sh (mask_4x4 (qu (s0 / 4) 2 0) (qu (s1 / 4) 3 1) s2 s3)
       (sh (mask_4x4 (s0 mod 4) (s1 mod 4) (s0 mod 4) (s1 mod 4)) a b) a = want.
  Proof. intros. unfold sh, want. rewrite !shps by (auto; m4). k4 s0 B0 s1 B1 s2 B2 s3 B3. Qed.
  Lemma f14 : 4 <= s0 -> 4 <= s1 ->
    sh (mask_4x4 (s0 - 4) (s1 - 4) (qu (s2 / 4) 2 0) (qu (s3 / 4) 3 1)) b
       (sh (mask_4x4 (s2 mod 4) (s3 mod 4) (s2 mod 4) (s3 mod 4)) a b) = want.
  Proof. intros. unfold sh, want. rewrite !shps by (auto; m4). k4 s0 B0 s1 B1 s2 B2 s3 B3. Qed.
  Lemma f15 : s0 < 4 -> s1 < 4 ->
    sh (mask_4x4 s0 s1 (qu (s2 / 4) 2 0) (qu (s3 / 4) 3 1)) a
       (sh (mask_4x4 (s2 mod 4) (s3 mod 4) (s2 mod 4) (s3 mod 4)) a b) = want.
  Proof. intros. unfold sh, want. rewrite !shps by (auto; m4). k4 s0 B0 s1 B1 s2 B2 s3 B3. Qed.
  Lemma f16 :
    sh (mask_4x4 (qu (s0 / 4) 2 0) (qu (s1 / 4) 3 1) (qu (s2 / 4) 2 0) (qu (s3 / 4) 3 1))
       (sh (mask_4x4 (s0 mod 4) (s1 mod 4) (s0 mod 4) (s1 mod 4)) a b)
       (sh (mask_4x4 (s2 mod 4) (s3 mod 4) (s2 mod 4) (s3 mod 4)) a b) = want.
  Proof. unfold sh, want. rewrite !shps by (auto; m4). k4 s0 B0 s1 B1 s2 B2 s3 B3. Qed.
  Lemma f16b :
    mm_blend 32 R (mask_4x2_R R (s0 / 4) (s1 / 4) (s2 / 4) (s3 / 4))
      (sh (mask_4x4 (s0 mod 4) (s1 mod 4) (s2 mod 4) (s3 mod 4)) a a)
      (sh (mask_4x4 (s0 mod 4) (s1 mod 4) (s2 mod 4) (s3 mod 4)) b b) = want.
  Proof. unfold sh, want. rewrite !shps, blendx by (auto; m4). k4 s0 B0 s1 B1 s2 B2 s3 B3. Qed.
  Lemma f16i :
    mm_blend 32 R (mask_4x2_R R (s0 / 4) (s1 / 4) (s2 / 4) (s3 / 4))
      (mm_shuffle_epi32 R (mask_4x4 (s0 mod 4) (s1 mod 4) (s2 mod 4) (s3 mod 4)) a)
      (mm_shuffle_epi32 R (mask_4x4 (s0 mod 4) (s1 mod 4) (s2 mod 4) (s3 mod 4)) b) = want.
  Proof. unfold want. rewrite !shepi, blendx by (auto; m4). k4 s0 B0 s1 B1 s2 B2 s3 B3. Qed.
  Lemma f8 : 4 <= s2 -> 4 <= s3 -> s0 mod 4 <> s1 mod 4 ->
    sh (mask_4x4 (s0 mod 4) (s1 mod 4) (s2 - 4) (s3 - 4)) (select2_hi R s0 s1 a b) b = want.
  Proof.
    intros ? ? HN. unfold sh, want. rewrite shps, select2 by (auto; m4). tr4.
    1,2: eight s0 B0; eight s1 B1; first [ exfalso; apply HN; reflexivity | tdone ].
    - eight s2 B2; first [exfalso; lia|tdone].
    - eight s3 B3; first [exfalso; lia|tdone].
  Qed.
  Lemma f9 : s2 < 4 -> s3 < 4 -> s0 mod 4 <> s1 mod 4 ->
    sh (mask_4x4 (s0 mod 4) (s1 mod 4) s2 s3) (select2_hi R s0 s1 a b) a = want.
  Proof.
    intros ? ? HN. unfold sh, want. rewrite shps, select2 by (auto; m4). tr4.
    1,2: eight s0 B0; eight s1 B1; first [ exfalso; apply HN; reflexivity | tdone ].
    - eight s2 B2; first [exfalso; lia|tdone].
    - eight s3 B3; first [exfalso; lia|tdone].
  Qed.
  Lemma f12 : 4 <= s0 -> 4 <= s1 -> s2 mod 4 <> s3 mod 4 ->
    sh (mask_4x4 (s0 - 4) (s1 - 4) (s2 mod 4) (s3 mod 4)) b (select2_hi R s2 s3 a b) = want.
  Proof.
    intros ? ? HN. unfold sh, want. rewrite shps, select2 by (auto; m4). tr4.
    3,4: eight s2 B2; eight s3 B3; first [ exfalso; apply HN; reflexivity | tdone ].
    - eight s0 B0; first [exfalso; lia|tdone].
    - eight s1 B1; first [exfalso; lia|tdone].
  Qed.
  Lemma f13 : s0 < 4 -> s1 < 4 -> s2 mod 4 <> s3 mod 4 ->
    sh (mask_4x4 s0 s1 (s2 mod 4) (s3 mod 4)) a (select2_hi R s2 s3 a b) = want.
  Proof.
    intros ? ? HN. unfold sh, want. rewrite shps, select2 by (auto; m4). tr4.
    3,4: eight s2 B2; eight s3 B3; first [ exfalso; apply HN; reflexivity | tdone ].
    - eight s0 B0; first [exfalso; lia|tdone].
    - eight s1 B1; first [exfalso; lia|tdone].
  Qed.
End F.

(** from the tests of impl_selector to facts *)
Ltac bfacts := repeat match goal with
  | H : _ && _ = true |- _ => apply andb_prop in H; destruct H
  | H : _ || _ = true |- _ => apply orb_prop in H; destruct H
  | H : (_ =? _) = true |- _ => apply Z.eqb_eq in H
  | H : (_ <? _) = true |- _ => apply Z.ltb_lt in H
  | H : (_ <=? _) = true |- _ => apply Z.leb_le in H
  | H : negb _ = true |- _ => apply negb_true_iff in H
  | H : (_ =? _) = false |- _ => apply Z.eqb_neq in H
  end.
Ltac fin := match goal with |- context [R128] => idtac | _ => idtac end; subst; selg 16.
Lemma sse_float32_4x2_ok A R s0 s1 s2 s3 a b : (R = 128 \/ R = 256 \/ R = 512) ->
  (R = 256 \/ R = 512 -> use_sse41 A = true) ->
  0 <= s0 < 8 -> 0 <= s1 < 8 -> 0 <= s2 < 8 -> 0 <= s3 < 8 -> reg R a -> reg R b ->
  sse_float32_4x2 A R s0 s1 s2 s3 a b = lsh 32 R 4 (p_shuffle4x2 s0 s1 s2 s3) [a; b].
Proof.
  intros HR HS H0 H1 H2 H3 Ha Hb. unfold sse_float32_4x2, sel_float32_4x2. cbv zeta.
  destruct ((s0 =? 0) && (s1 =? 4) && (s2 =? 1) && (s3 =? 5)) eqn:E1.
  { bfacts; subst. destruct HR as [-> | [-> | ->]]; selg 16. }
  destruct ((s0 =? 4) && (s1 =? 0) && (s2 =? 5) && (s3 =? 1)) eqn:E2.
  { bfacts; subst. destruct HR as [-> | [-> | ->]]; selg 16. }
  destruct ((s0 =? 2) && (s1 =? 6) && (s2 =? 3) && (s3 =? 7)) eqn:E3.
  { bfacts; subst. destruct HR as [-> | [-> | ->]]; selg 16. }
  destruct ((s0 =? 6) && (s1 =? 2) && (s2 =? 7) && (s3 =? 3)) eqn:E4.
  { bfacts; subst. destruct HR as [-> | [-> | ->]]; selg 16. }
  clear E1 E2 E3 E4.
  match goal with |- context [if ?c then 5 else _] => destruct c eqn:E5 end.
  { apply andb_prop in E5. destruct E5 as [_ E5]. rewrite blendx by (auto; m4).
    apply lsh_ext; [apply gk; auto|]. intros k Hk. bfacts; subst; four k Hk; reflexivity. }
  clear E5.
  match goal with |- context [if ?c then 6 else _] => destruct c eqn:E6 end.
  { bfacts. apply f6; auto. } clear E6.
  match goal with |- context [if ?c then 7 else _] => destruct c eqn:E7 end.
  { bfacts. apply f7; auto. } clear E7.
  match goal with |- context [if ?c then 8 else _] => destruct c eqn:E8 end.
  { bfacts. apply f8; auto. } clear E8.
  match goal with |- context [if ?c then 9 else _] => destruct c eqn:E9 end.
  { bfacts. apply f9; auto. } clear E9.
  match goal with |- context [if ?c then 10 else _] => destruct c eqn:E10 end.
  { bfacts. apply f10; auto. } clear E10.
  match goal with |- context [if ?c then 11 else _] => destruct c eqn:E11 end.
  { bfacts. apply f11; auto. } clear E11.
  match goal with |- context [if ?c then 12 else _] => destruct c eqn:E12 end.
  { bfacts. apply f12; auto. } clear E12.
  match goal with |- context [if ?c then 13 else _] => destruct c eqn:E13 end.
  { bfacts. apply f13; auto. } clear E13.
  match goal with |- context [if ?c then 14 else _] => destruct c eqn:E14 end.
  { bfacts. apply f14; auto. } clear E14.
  match goal with |- context [if ?c then 15 else _] => destruct c eqn:E15 end.
  { bfacts. apply f15; auto. } clear E15.
  destruct ((R =? 128) && negb (use_sse41 A)) eqn:E. { apply f16; auto. }
  rewrite <- f16b by auto. destruct HR as [-> | [-> | ->]]; reflexivity.
Qed.

Lemma blend16_4 x0 x1 x2 x3 a b : 0 <= x0 < 2 -> 0 <= x1 < 2 -> 0 <= x2 < 2 -> 0 <= x3 < 2 -> reg 128 a -> reg 128 b ->
  mm_blend_epi16 128 (mask_4x4 (x0 * 3) (x1 * 3) (x2 * 3) (x3 * 3)) a b =
  lsh 32 128 4 (fun k => if x4 k x0 x1 x2 x3 =? 1 then fromB k else fromA k) [a; b].
Proof. intros. selg 16. Qed.
Lemma sse_int32_4x2_ok A R s0 s1 s2 s3 a b : (R = 128 \/ R = 256 \/ R = 512) ->
  0 <= s0 < 8 -> 0 <= s1 < 8 -> 0 <= s2 < 8 -> 0 <= s3 < 8 -> reg R a -> reg R b ->
  sse_int32_4x2 A R s0 s1 s2 s3 a b = lsh 32 R 4 (p_shuffle4x2 s0 s1 s2 s3) [a; b].
Proof.
  intros HR H0 H1 H2 H3 Ha Hb. unfold sse_int32_4x2, sel_int32_4x2. cbv zeta.
  destruct ((s0 =? 0) && (s1 =? 4) && (s2 =? 1) && (s3 =? 5)) eqn:E1.
  { bfacts; subst. destruct HR as [-> | [-> | ->]]; selg 16. }
  destruct ((s0 =? 4) && (s1 =? 0) && (s2 =? 5) && (s3 =? 1)) eqn:E2.
  { bfacts; subst. destruct HR as [-> | [-> | ->]]; selg 16. }
  destruct ((s0 =? 2) && (s1 =? 6) && (s2 =? 3) && (s3 =? 7)) eqn:E3.
  { bfacts; subst. destruct HR as [-> | [-> | ->]]; selg 16. }
  destruct ((s0 =? 6) && (s1 =? 2) && (s2 =? 7) && (s3 =? 3)) eqn:E4.
  { bfacts; subst. destruct HR as [-> | [-> | ->]]; selg 16. }
  clear E1 E2 E3 E4.
  match goal with |- context [if ?c then 5 else _] => destruct c eqn:E5 end.
  { apply andb_prop in E5. destruct E5 as [_ E5].
    bfacts; subst; destruct HR as [-> | [-> | ->]]; cbn [Z.eqb Pos.eqb]; first [selg 16 | selg 32 | selg 64]. }
  clear E5.
  match goal with |- context [if ?c then 6 else _] => destruct c eqn:E6 end.
  { apply andb_prop in E6. destruct E6 as [_ E6]. bfacts.
    assert (s1 = s0 + 1) as E1 by lia. assert (s2 = s0 + 2) as E2 by lia. assert (s3 = s0 + 3) as E3 by lia.
    assert (s0 = 0 \/ s0 = 1 \/ s0 = 2 \/ s0 = 3 \/ s0 = 4) as HH by lia.
    clear - E1 E2 E3 HH HR Ha Hb. subst s1 s2 s3.
    destruct HH as [HH | [HH | [HH | [HH | HH]]]]; subst s0;
    destruct HR as [-> | [-> | ->]]; cbn [Z.eqb Pos.eqb]; first [selg 16 | selg 64]. }
  clear E6.
  destruct HR as [-> | [-> | ->]]; cbn [Z.eqb Pos.eqb].
  - destruct (use_avx2 A). { apply (f16i 128); auto. }
    destruct (use_sse41 A).
    { rewrite blend16_4 by first [m4|apply lsh_reg; reflexivity].
      rewrite <- (f16i 128) by auto. symmetry. apply (blendx 128); auto; m4. }
    apply (f16 128); auto.
  - apply (f16i 256); auto.
  - apply (f16i 512); auto.
Qed.

(** the AltiVec byte masks: bytes of one selector at a time *)
Lemma mask_ok_4 s0 s1 s2 s3 : 0 <= s0 < 8 -> 0 <= s1 < 8 -> 0 <= s2 < 8 -> 0 <= s3 < 8 ->
  mask_ok 32 (shuffle_mask_bytes 4 [s0; s1; s2; s3]) = true.
Proof.
  assert (forall s, 0 <= s < 8 -> forallb (fun c => (0 <=? c) && (c <? 32)) (map (fun i => shuffle_byte 4 4 s i + 0) (zrange 4)) = true) as HB.
  { intros s Hs. enum. }
  intros H0 H1 H2 H3.
  change (shuffle_mask_bytes 4 [s0; s1; s2; s3]) with
    (map (fun i => shuffle_byte 4 4 s0 i + 0) (zrange 4) ++ map (fun i => shuffle_byte 4 4 s1 i + 0) (zrange 4) ++
     map (fun i => shuffle_byte 4 4 s2 i + 0) (zrange 4) ++ map (fun i => shuffle_byte 4 4 s3 i + 0) (zrange 4)).
  unfold mask_ok. rewrite !forallb_app, !HB by auto. reflexivity.
Qed.
Lemma shuffle_mask_4_ok A s0 s1 s2 s3 a b : valid_arch A = true -> has_shuffle_bytes A = true ->
  0 <= s0 < 8 -> 0 <= s1 < 8 -> 0 <= s2 < 8 -> 0 <= s3 < 8 -> reg 128 a -> reg 128 b ->
  shuffle_mask A R128 4 [s0; s1; s2; s3] a b = Ok (lsh 32 128 4 (p_shuffle4x2 s0 s1 s2 s3) [a; b]).
Proof.
  intros HV HB H0 H1 H2 H3 Ha Hb. unfold shuffle_mask, make_shuffle_bytes16_mask.
  rewrite shuf_mask_ok by (auto using mask_ok_4). f_equal. cbn [rbits]. symmetry.
  rewrite (byt_lsh 32 128 4 16); [|reflexivity|].
  - apply lsh_ext; [reflexivity|]. intros k Hk.
    assert (k = 0 \/ k = 1 \/ k = 2 \/ k = 3 \/ k = 4 \/ k = 5 \/ k = 6 \/ k = 7 \/ k = 8 \/ k = 9 \/ k = 10 \/ k = 11 \/ k = 12 \/ k = 13 \/ k = 14 \/ k = 15) as HK by lia.
    clear Hk. repeat destruct HK as [HK|HK]; subst k.
    1,2,3,4: clear H1 H2 H3; eight s0 H0; lazy; reflexivity.
    1,2,3,4: clear H0 H2 H3; eight s1 H1; lazy; reflexivity.
    1,2,3,4: clear H0 H1 H3; eight s2 H2; lazy; reflexivity.
    1,2,3,4: clear H0 H1 H2; eight s3 H3; lazy; reflexivity.
  - assert (forall s, 0 <= s < 8 -> match p_cat 4 s with None => true | Some (_, j) => (0 <=? j) && (j <? 4) end = true) as HP.
    { intros s Hs. enum. }
    unfold in_range. change (zrange 4) with [0; 1; 2; 3]. cbn [forallb]. unfold p_shuffle4x2. cbn [Z.eqb Pos.eqb].
    rewrite !HP by auto. reflexivity.
Qed.
(** VSHF.W with constant selectors *)
Lemma vshf_sel c a b : 0 <= c < 8 ->
  (let j := wrap 6 c mod (2 * (128 / 32)) in
   if negb (lane 2 3 c =? 0) then 0 else if j <? 128 / 32 then lane 32 j a else lane 32 (j - 128 / 32) b) =
  match p_cat 4 c with None => 0 | Some (m, j) => lane 32 j (nth m [a; b] 0) end.
Proof. intros H. eight c H; reflexivity. Qed.
Lemma vshf_4_ok A s0 s1 s2 s3 a b : valid_arch A = true ->
  0 <= s0 < 8 -> 0 <= s1 < 8 -> 0 <= s2 < 8 -> 0 <= s3 < 8 ->
  (let* m := i_make_const A W32 R128 [s0; s1; s2; s3] 0 in Ok (msa_vshf 32 m b a)) =
  Ok (lsh 32 128 4 (p_shuffle4x2 s0 s1 s2 s3) [a; b]).
Proof.
  intros HV H0 H1 H2 H3. rewrite i_make_const_ok by (auto; cbn; lia). cbn [bind wb rbits]. f_equal.
  apply eq_lsh; [reflexivity|apply v1_reg; reflexivity|]. intros g k Hg Hk.
  assert (g = 0) as -> by (change (128 / (4 * 32)) with 1 in Hg; lia). rewrite !Z.mul_0_r, !Z.add_0_l.
  unfold msa_vshf. rewrite lane_v1 by (auto; reflexivity). rewrite lane_pack by (auto; reflexivity).
  assert (forall x, 0 <= x < 8 -> wrap 32 x = x) as HW by (intros; apply wrap_small; lia).
  four k Hk; unfold cval_at; cbn [length Z.of_nat Pos.of_succ_nat Pos.succ];
  match goal with |- context [Z.to_nat ?e] => let v := eval lazy in (Z.to_nat e) in change (Z.to_nat e) with v end; cbn [nth];
  match goal with |- context [wrap 32 ?x] => is_var x; rewrite (HW x) by assumption;
    pose proof (vshf_sel x a b) as HX; cbv zeta in HX; rewrite HX by assumption end;
  unfold p_shuffle4x2; cbn [Z.eqb Pos.eqb]; unfold p_cat;
  match goal with |- context [?x <? 4] => destruct (x <? 4) end; cbn [nth]; rewrite Z.add_0_l; apply wrap_lane.
Qed.
Lemma null_shuffle4x2_ok s0 s1 s2 s3 a b :
  null_shuffle4x2 s0 s1 s2 s3 a b = lsh 32 128 4 (p_shuffle4x2 s0 s1 s2 s3) [a; b].
Proof. apply lsh_ext; [reflexivity|]. intros k Hk. four k Hk; reflexivity. Qed.
Lemma has_sb_sse2 A : use_sse2 A = false -> has_shuffle_bytes A = true.
Proof. unfold has_shuffle_bytes. intros ->. reflexivity. Qed.
#[global] Hint Resolve has_sb_sse2 : core.
Lemma avx_sse41 A : valid_arch A = true -> use_avx A = true -> use_sse41 A = true.
Proof. intros HV H. destruct (use_sse41 A) eqn:E; auto. vimp HV. Qed.
Lemma avx512_avx A : valid_arch A = true -> use_avx512f A = true -> use_avx A = true.
Proof. intros HV H. destruct (use_avx A) eqn:E; auto. vimp HV. Qed.
Lemma i_shuffle4x2_ok A e s s0 s1 s2 s3 a b : valid_arch A = true -> avail_et A e s = true -> e = I32 \/ e = F32 ->
  0 <= s0 < 8 -> 0 <= s1 < 8 -> 0 <= s2 < 8 -> 0 <= s3 < 8 -> reg (rbits s) a -> reg (rbits s) b ->
  i_shuffle4x2 A e s s0 s1 s2 s3 a b = Ok (lsh 32 (rbits s) 4 (p_shuffle4x2 s0 s1 s2 s3) [a; b]).
Proof.
  intros HV HA He H0 H1 H2 H3 Ha Hb.
  assert (RR : rbits s = 128 \/ rbits s = 256 \/ rbits s = 512) by (destruct s; auto).
  destruct He as [-> | ->]; cbn [i_shuffle4x2 avail_et eb] in *.
  - unfold i_shuffle4x2_32. destruct s; cbn [rbits] in *; lad HV HA ltac:(idtac; first
    [ apply shuffle_mask_4_ok; auto; fail | apply vshf_4_ok; auto
    | okc; first [ apply sse_int32_4x2_ok; auto | apply n32_shuffle4x2_lsh; auto | apply null_shuffle4x2_ok ] ]).
  - unfold i_shuffle4x2_f32, use_neon_no_flt_sp. destruct s; cbn [rbits] in *; lad HV HA ltac:(idtac; first
    [ apply shuffle_mask_4_ok; auto; fail | apply vshf_4_ok; auto
    | okc; first [ apply sse_float32_4x2_ok; auto; intros [? | ?]; first [discriminate | eauto using avx_sse41, avx512_avx] | apply n32_shuffle4x2_lsh; auto | apply null_shuffle4x2_ok ] ]).
Qed.
