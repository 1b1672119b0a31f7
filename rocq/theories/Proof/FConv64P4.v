(** Conversions of float64 to 32-bit numbers: the registers *)
From Verif Require Import Proof.FloatsP3 Proof.FloatRoundP Proof.FArithP Proof.FConvP Proof.FConvP2 Proof.FConv64P Proof.CastP Proof.CmpP Proof.ConvertP Proof.ConvertP2 Proof.SplitP Proof.BlendP.
From Verif Require Export Proof.FConv64P3.
From Coq Require Import Lia.

(** the one or two registers [l] of doubles with twice the bits of [s] *)
Definition dn (s' s : rsz) (op : list Z -> res Z) (dom : Z -> bool) (P : Z -> Z -> Prop) : Prop :=
  forall l, wfv s' l -> Z.of_nat (length l) * rbits s' = 2 * rbits s -> forallb dom (lanes 64 s' l) = true ->
  exists r, op l = Ok r /\ reg (rbits s) r /\ Forall2 P (lanes 64 s' l) (elems 32 (nl 32 (rbits s)) r).
Lemma lanes1 w s a : lanes w s [a] = elems w (nl w (rbits s)) a.
Proof. unfold lanes. cbn [flat_map]. apply app_nil_r. Qed.
Lemma lift_one s' s op dom P T : rbits s' = 2 * rbits s -> dn s' s op dom P -> conv_rel 64 32 (2 * T) T s' s (vec_impl1 (fun a => op [a])) dom P.
Proof.
  intros E H va. revert T. induction va as [|a va IH]; intros T Wa La Hd.
  { exists []. split; [reflexivity|]. split; [constructor|]. split; [cbn [length] in *; lia|constructor]. }
  apply wfv_cons in Wa. destruct Wa as [Ha Wa]. rewrite lanes_cons, forallb_app in Hd. apply andb_prop in Hd as [Hd Hd2].
  destruct (H [a]) as (r & Er & Wr & HF).
  { apply wfv_cons. split; auto. constructor. }
  { cbn [length]. lia. }
  { rewrite lanes1. exact Hd. }
  destruct (IH (T - rbits s) Wa) as (vr & Ev & Wv & Lr & HF2); auto.
  { cbn [length] in La. lia. }
  exists (r :: vr). cbn [vec_impl1]. rewrite Er. cbn [bind]. rewrite Ev. cbn [bind]. split; [reflexivity|].
  split; [apply wfv_cons; auto|]. split; [cbn [length]; lia|]. rewrite !lanes_cons. rewrite lanes1 in HF. apply Forall2_app; auto.
Qed.
Lemma lift_two s op dom P T : (rbits s | T) -> dn s s op dom P -> conv_rel 64 32 (2 * T) T s s (conv_pairs op) dom P.
Proof.
  intros HT H va. assert (exists n, (length va <= n)%nat) as [n Hn] by (exists (length va); lia). revert va T Hn HT.
  assert (Hs : 0 < rbits s) by (destruct s; reflexivity).
  induction n as [|n IH]; intros va T Hn HT Wa La Hd; (destruct va as [|a [|b va]]; [| |]).
  { exists []. split; [reflexivity|]. split; [constructor|]. split; [cbn [length] in *; lia|constructor]. }
  { exfalso. cbn [length] in Hn. lia. }
  { exfalso. cbn [length] in Hn. lia. }
  { exists []. split; [reflexivity|]. split; [constructor|]. split; [cbn [length] in *; lia|constructor]. }
  { exfalso. cbn [length] in La. destruct HT as [k ->]. destruct s; cbn [rbits] in La; lia. }
  apply wfv_cons in Wa. destruct Wa as [Ha Wa]. apply wfv_cons in Wa. destruct Wa as [Hb Wa].
  assert (EL : lanes 64 s (a :: b :: va) = lanes 64 s [a; b] ++ lanes 64 s va).
  { unfold lanes. cbn [flat_map]. rewrite app_nil_r, app_assoc. reflexivity. }
  rewrite EL in *. rewrite forallb_app in Hd. apply andb_prop in Hd as [Hd Hd2].
  destruct (H [a; b]) as (r & Er & Wr & HF); auto.
  { apply wfv_cons. split; auto. apply wfv_cons. split; auto. constructor. }
  destruct (IH va (T - rbits s)) as (vr & Ev & Wv & Lr & HF2); auto.
  { cbn [length] in Hn. lia. }
  { destruct HT as [k ->]. exists (k - 1). ring. }
  { cbn [length] in La. lia. }
  exists (r :: vr). cbn [conv_pairs]. rewrite Er. cbn [bind]. rewrite Ev. cbn [bind]. split; [reflexivity|].
  split; [apply wfv_cons; auto|]. split; [cbn [length]; lia|]. rewrite (lanes_cons 32). apply Forall2_app; auto.
Qed.
Lemma lift_down s' s op dom P T : s' = s \/ (rbits s' = 2 * rbits s /\ T = rbits s) -> (rbits s | T) -> 0 < T -> dn s' s op dom P ->
  conv_rel 64 32 (2 * T) T s' s (conv_down op) dom P.
Proof.
  intros [-> |[E ->]] HT HP H.
  - intros va Wa La Hd. destruct (lift_two s op dom P T HT H va Wa La Hd) as (vr & Ev & R).
    exists vr. split; auto. destruct va as [|a [|b va]]; auto.
    exfalso. cbn [length] in La. destruct HT as [k ->]. destruct s; cbn [rbits] in La; lia.
  - intros va Wa La Hd. destruct (lift_one s' s op dom P _ E H va Wa La Hd) as (vr & Ev & R).
    exists vr. split; auto. destruct va as [|a [|b va]].
    + exfalso. cbn [length] in La. lia.
    + exact Ev.
    + exfalso. cbn [length] in La. lia.
Qed.
Local Transparent lane.
Lemma lane_shiftr w i a : lane w i a = wrap w (Z.shiftr a (w * i)).
Proof. reflexivity. Qed.
Local Opaque lane.
Lemma F2_map {X Y} (P : X -> Y -> Prop) f l r : r = map f l -> (forall x, In x l -> P x (f x)) -> Forall2 P l r.
Proof. intros ->. apply Forall2_map_in. Qed.

Section D.
  Variable f : Z -> Z.
  Hypothesis Hf : forall x, 0 <= x < 2 ^ 64 -> 0 <= f x < 2 ^ 32.
  (** one register *)
  Definition d1 (s' s : rsz) (a r : Z) : Prop := reg (rbits s) r /\ elems 32 (nl 32 (rbits s)) r = map f (elems 64 (nl 64 (rbits s')) a).
  Definition d2 (s : rsz) (a b r : Z) : Prop := reg (rbits s) r /\
    elems 32 (nl 32 (rbits s)) r = map f (elems 64 (nl 64 (rbits s)) a ++ elems 64 (nl 64 (rbits s)) b).
  Lemma lane_down R R' a i : wok 32 R' = true -> 0 <= i < R / 64 -> i < R' / 32 -> lane 32 i (cvt_down R R' f a) = f (lane 64 i a).
  Proof.
    intros HR Hi Hi'. unfold cvt_down. rewrite lane_pack by (auto; lia). destruct (Z.ltb_spec i (R / 64)); [|lia]. apply wrap_small, Hf, lane_range. lia.
  Qed.
  Lemma d1_down s' s a : rbits s' = 2 * rbits s -> d1 s' s a (cvt_down (rbits s') (rbits s) f a).
  Proof.
    intros E. split; [apply pack_reg, w32|]. unfold elems. rewrite map_map.
    assert (En : nl 64 (rbits s') = nl 32 (rbits s)) by (destruct s, s'; try discriminate E; reflexivity). rewrite En.
    apply map_ext_in. intros i Hi. apply in_seq in Hi. pose proof (nl_div 32 (rbits s) (w32 s)). pose proof (nl_div 64 (rbits s') (w64 s')). apply lane_down; [apply w32|lia|lia].
  Qed.
  Lemma d2_128 a b r : reg 128 r -> (forall i, 0 <= i < 4 -> lane 32 i r = f (lane 64 (i mod 2) (if i <? 2 then a else b))) -> d2 R128 a b r.
  Proof.
    intros Hr H. split; auto. change (nl 32 (rbits R128)) with 4%nat. change (nl 64 (rbits R128)) with 2%nat. unfold elems. cbn [seq map app].
    pose proof (H 0 ltac:(lia)) as H0. pose proof (H 1 ltac:(lia)) as H1. pose proof (H 2 ltac:(lia)) as H2. pose proof (H 3 ltac:(lia)) as H3.
    change (Z.of_nat 0) with 0. change (Z.of_nat 1) with 1. change (Z.of_nat 2) with 2. change (Z.of_nat 3) with 3. rewrite H0, H1, H2, H3. reflexivity.
  Qed.
  Lemma d2_join s' s a b x y : half_of s s' -> d1 s s' a x -> d1 s s' b y -> d2 s a b (i_combine1 s' x y).
  Proof.
    intros Hh [Rx Ex] [Ry Ey]. destruct (join_lanes 32 s' s x y) as [HR HE]; auto; [red; auto 10|].
    split; auto. rewrite HE, Ex, Ey, map_app. reflexivity.
  Qed.
  Lemma d2_zip a b : d2 R128 a b (lsh 64 128 2 (p_zip 2 false) [cvt_down 128 128 f a; cvt_down 128 128 f b]).
  Proof.
    apply d2_128; [apply lsh_reg; reflexivity|]. intros i Hi.
    pose proof (fun k H => lane_lsh 64 128 2 (p_zip 2 false) [cvt_down 128 128 f a; cvt_down 128 128 f b] 0 k eq_refl H ltac:(split; reflexivity || discriminate)) as L.
    set (r := lsh _ _ _ _ _) in *. clearbody r.
    pose proof (fun k j => lane_lane 32 2 k j r) as LL. pose proof (fun k j z => lane_lane 32 2 k j z) as LZ. change (32 * 2) with 64 in *.
    assert (E0 : lane 64 0 r = lane 64 0 (cvt_down 128 128 f a)) by exact (L 0 ltac:(lia)).
    assert (E1 : lane 64 1 r = lane 64 0 (cvt_down 128 128 f b)) by exact (L 1 ltac:(lia)).
    assert (HD : forall z j, 0 <= j < 2 -> lane 32 j (cvt_down 128 128 f z) = f (lane 64 j z)) by (intros z j Hj; apply lane_down; [reflexivity|exact Hj|change (128 / 32) with 4; lia]).
    assert (C : i = 0 \/ i = 1 \/ i = 2 \/ i = 3) by lia.
    destruct C as [-> |[-> |[-> | ->]]].
    - etransitivity; [symmetry; apply (LL 0 0); lia|]. rewrite E0. etransitivity; [apply (LZ 0 0); lia|]. apply (HD a 0). lia.
    - etransitivity; [symmetry; apply (LL 0 1); lia|]. rewrite E0. etransitivity; [apply (LZ 0 1); lia|]. apply (HD a 1). lia.
    - etransitivity; [symmetry; apply (LL 1 0); lia|]. rewrite E1. etransitivity; [apply (LZ 0 0); lia|]. apply (HD b 0). lia.
    - etransitivity; [symmetry; apply (LL 1 1); lia|]. rewrite E1. etransitivity; [apply (LZ 0 1); lia|]. apply (HD b 1). lia.
  Qed.
  Lemma d2_words a b : d2 R128 a b (pack 32 128 (fun i => f (lane 64 (i mod 2) (if i <? 2 then a else b)))).
  Proof.
    apply d2_128; [apply pack_reg; reflexivity|]. intros i Hi. rewrite lane_pack by (reflexivity || exact Hi). apply wrap_small, Hf.
    destruct (i <? 2); apply lane_range; lia.
  Qed.
  (** halves put together *)
  Lemma d2_halves a b x y : 0 <= x < 2 ^ 64 -> 0 <= y < 2 ^ 64 -> (forall i, 0 <= i < 2 -> lane 32 i x = f (lane 64 i a)) -> (forall i, 0 <= i < 2 -> lane 32 i y = f (lane 64 i b)) ->
    d2 R128 a b (Z.lor x (Z.shiftl y 64)).
  Proof.
    intros Hx Hy Ha Hb.
    assert (ES : forall i, 0 <= i -> lane 32 i (Z.shiftl y 64) = if i <? 2 then 0 else lane 32 (i - 2) y).
    { intros i Hi. rewrite !lane_shiftr by lia. destruct (Z.ltb_spec i 2).
      - unfold wrap. apply Z.bits_inj'. intros n Hn. rewrite Z.bits_0. destruct (Z.lt_ge_cases n 32).
        + rewrite Z.mod_pow2_bits_low, Z.shiftr_spec, Z.shiftl_spec_low by lia. reflexivity.
        + rewrite Z.mod_pow2_bits_high by lia. reflexivity.
      - f_equal. apply Z.bits_inj'. intros n Hn. rewrite !Z.shiftr_spec, Z.shiftl_spec by lia. f_equal. lia. }
    assert (EX : forall i, 2 <= i -> lane 32 i x = 0).
    { intros i Hi. rewrite lane_shiftr by lia. rewrite Z.shiftr_div_pow2 by lia. rewrite Z.div_small; [reflexivity|]. split; [lia|].
      apply Z.lt_le_trans with (2 ^ 64); [lia|]. apply Z.pow_le_mono_r; lia. }
    apply d2_128.
    - assert (Hy2 : Z.shiftl y 64 = y * 2 ^ 64) by (apply Z.shiftl_mul_pow2; lia).
      split; [apply Z.lor_nonneg; split; [lia|rewrite Hy2; lia]|].
      assert (Z.lor x (Z.shiftl y 64) = Z.lor x (Z.shiftl y 64) mod 2 ^ 128) as ->; [|apply Z.mod_pos_bound; reflexivity].
      rewrite <- Z.land_ones, Z.land_lor_distr_l, !Z.land_ones by lia. rewrite !Z.mod_small; [reflexivity| |].
      + rewrite Hy2. change (2 ^ 128) with (2 ^ 64 * 2 ^ 64). nia.
      + split; [lia|]. apply Z.lt_trans with (2 ^ 64); [lia|reflexivity].
    - intros i Hi. rewrite lane_lor by lia. rewrite ES by lia. destruct (Z.ltb_spec i 2).
      + rewrite Z.lor_0_r, Z.mod_small by lia. apply Ha. lia.
      + rewrite EX by lia. rewrite Z.lor_0_l. assert (i mod 2 = i - 2) as ->. { symmetry. apply (Z.mod_unique _ _ 1); lia. } apply Hb. lia.
  Qed.
End D.
