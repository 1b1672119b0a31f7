(** Conversions to and from float64: the registers *)
From Verif Require Import Proof.FloatsP3 Proof.FloatRoundP Proof.FArithP Proof.FConvP Proof.FConvP2 Proof.FConv64P Proof.CastP Proof.CmpP Proof.ConvertP Proof.ConvertP2 Proof.SplitP Proof.BlendP.
From Verif Require Export Model.FConv64.
From Coq Require Import Lia.

(** chunks: [k] registers of the source become [l] registers of the result *)
Lemma lift_up w w' s s' f P T : wok w (rbits s) = true ->
  (forall a, reg (rbits s) a -> exists l, f a = Ok l /\ wfv s' l /\ Z.of_nat (length l) * rbits s' = 2 * rbits s /\
     Forall2 P (elems w (nl w (rbits s)) a) (lanes w' s' l)) ->
  conv_rel w w' T (2 * T) s s' (conv_each f) all_lanes P.
Proof.
  intros Hw H va. revert T. induction va as [|a va IH]; intros T Wa La Hd.
  { exists []. split; [reflexivity|]. split; [constructor|]. split; [cbn [length] in *; lia|constructor]. }
  apply wfv_cons in Wa. destruct Wa as [Ha Wa].
  destruct (H a Ha) as (l & El & Wl & Ll & Hrel). destruct (IH (T - rbits s) Wa) as (vr & Ev & Wr & Lr & HF).
  { cbn [length] in La. lia. }
  { apply forallb_forall. reflexivity. }
  exists (l ++ vr). cbn [conv_each]. rewrite El. cbn [bind]. rewrite Ev. cbn [bind]. split; [reflexivity|].
  split; [apply wfv_app; auto|]. split; [rewrite app_length; lia|]. rewrite lanes_cons. unfold lanes in *. rewrite flat_map_app. apply Forall2_app; auto.
Qed.
Definition up_ok (s s' : rsz) (f : Z -> Z) (a : Z) (l : list Z) : Prop :=
  wfv s' l /\ Z.of_nat (length l) * rbits s' = 2 * rbits s /\ lanes 64 s' l = map f (elems 32 (nl 32 (rbits s)) a).
Lemma Forall2_map_in {X Y} (P : X -> Y -> Prop) f l : (forall x, In x l -> P x (f x)) -> Forall2 P l (map f l).
Proof. induction l; intros H; cbn [map]; constructor; [apply H; left; reflexivity|]. apply IHl. intros; apply H; right; auto. Qed.
Lemma in_elems w n a x : 0 <= w -> In x (elems w n a) -> 0 <= x < 2 ^ w.
Proof. intros Hw H. unfold elems in H. apply in_map_iff in H. destruct H as (i & <- & _). apply lane_range. auto. Qed.
Lemma lift_up_map s s' f op (P : Z -> Z -> Prop) T : (forall a, reg (rbits s) a -> exists l, op a = Ok l /\ up_ok s s' f a l) ->
  (forall x, 0 <= x < 2 ^ 32 -> P x (f x)) -> conv_rel 32 64 T (2 * T) s s' (conv_each op) all_lanes P.
Proof.
  intros H HP. apply lift_up; [apply w32|]. intros a Ha. destruct (H a Ha) as (l & El & W & L & E). exists l. split; auto. split; auto. split; auto.
  rewrite E. apply Forall2_map_in. intros x Hx. apply HP. apply in_elems in Hx; [auto|lia].
Qed.
Lemma w64 s : wok 64 (rbits s) = true. Proof. destruct s; reflexivity. Qed.
Lemma cvt_up_reg s' f k a : reg (rbits s') (cvt_up (rbits s') f k a). Proof. apply pack_reg, w64. Qed.
Lemma seq_shift_n n k : forall j, map (fun i => (n + i)%nat) (seq j k) = seq (n + j) k.
Proof. induction k as [|k IH]; intros j; [reflexivity|]. cbn [seq map]. f_equal. rewrite IH. f_equal. lia. Qed.
Section U.
  Variable f : Z -> Z.
  Hypothesis Hf : forall x, 0 <= x < 2 ^ 32 -> 0 <= f x < 2 ^ 64.
  Lemma lane_up s' k a i : 0 <= i < rbits s' / 64 -> lane 64 i (cvt_up (rbits s') f k a) = f (lane 32 (k + i) a).
  Proof. intros Hi. unfold cvt_up. rewrite lane_pack by (auto using w64). apply wrap_small, Hf, lane_range. lia. Qed.
  Lemma elems_up s' k a : elems 64 (nl 64 (rbits s')) (cvt_up (rbits s') f k a) = map (fun i => f (lane 32 (k + Z.of_nat i) a)) (seq 0 (nl 64 (rbits s'))).
  Proof.
    unfold elems. apply map_ext_in. intros i Hi. apply in_seq in Hi. apply lane_up. pose proof (nl_div 64 (rbits s') (w64 s')). lia.
  Qed.
  Lemma up_one s s' a : rbits s' = 2 * rbits s -> up_ok s s' f a [cvt_up (rbits s') f 0 a].
  Proof.
    intros E. split; [apply wfv_cons; split; [apply cvt_up_reg|constructor]|]. split; [cbn [length]; lia|].
    rewrite lanes_cons, elems_up. unfold lanes at 1. cbn [flat_map]. rewrite app_nil_r. unfold elems. rewrite map_map.
    assert (En : nl 64 (rbits s') = nl 32 (rbits s)) by (destruct s, s'; try discriminate E; reflexivity). rewrite En. reflexivity.
  Qed.
  Lemma up_two s x y a : reg (rbits s) x -> reg (rbits s) y ->
    (forall i, 0 <= i < rbits s / 64 -> lane 64 i x = f (lane 32 i a) /\ lane 64 i y = f (lane 32 (rbits s / 64 + i) a)) -> up_ok s s f a [x; y].
  Proof.
    intros Hx Hy H. split; [apply wfv_cons; split; auto; apply wfv_cons; split; auto; constructor|]. split; [cbn [length]; lia|].
    rewrite !lanes_cons. unfold lanes at 1. cbn [flat_map]. rewrite app_nil_r. unfold elems. rewrite !map_map.
    pose proof (nl_div 64 (rbits s) (w64 s)) as E.
    assert (En : nl 32 (rbits s) = (nl 64 (rbits s) + nl 64 (rbits s))%nat) by (destruct s; reflexivity). rewrite En, seq_app, map_app.
    f_equal.
    - apply map_ext_in. intros i Hi. apply in_seq in Hi. apply H. lia.
    - replace (seq (0 + nl 64 (rbits s)) (nl 64 (rbits s))) with (map (fun i => (nl 64 (rbits s) + i)%nat) (seq 0 (nl 64 (rbits s)))) by (rewrite seq_shift_n; f_equal; lia). rewrite map_map. apply map_ext_in. intros i Hi. apply in_seq in Hi.
      rewrite Nat2Z.inj_add, E. apply H. lia.
  Qed.
End U.

(** the destination register of source register [s] *)
Definition dreg (A : arch) (s : rsz) : rsz :=
  match s with R128 => if use_avx A then R256 else R128 | R256 => if use_avx512f A then R512 else R256 | R512 => R512 end.
Section W.
  Variable A : arch.
  Hypothesis HV : valid_arch A = true.
  Lemma dreg_flt T : vsize T -> vregf A (2 * T) = dreg A (vregf A T).
  Proof.
    intros HT. destruct HT as [k ->]. unfold vregf, dreg, fast_flt. destruct (valid_imp A HV) as (Ha & Hb & Hc & Hd & He).
    assert (Hp : 0 < 2 ^ Z.of_nat k) by (apply Z.pow_pos_nonneg; lia). set (p := 2 ^ Z.of_nat k) in *.
    destruct (Z.leb_spec (2 * (128 * p)) 128); [lia|].
    destruct (Z.leb_spec (128 * p) 128).
    - assert (p = 1) as -> by lia. destruct (use_avx512f A) eqn:E5, (use_avx A) eqn:E3; try reflexivity. vimp HV.
    - destruct (use_avx512f A) eqn:E5; [|destruct (use_avx A); reflexivity].
      assert (use_avx A = true) as E3 by (apply avx512_avx; auto).
      destruct (Z.leb_spec (2 * (128 * p)) 256); [lia|]. destruct (Z.leb_spec (128 * p) 256); reflexivity.
  Qed.
  Lemma dreg_int T : vsize T -> vregf A (2 * T) = dreg A (vreg A 32 T).
  Proof.
    intros HT. destruct HT as [k ->]. unfold vregf, vreg, dreg, fast_flt, fast_int.
    assert (Hp : 0 < 2 ^ Z.of_nat k) by (apply Z.pow_pos_nonneg; lia). set (p := 2 ^ Z.of_nat k) in *. change (32 <=? 16) with false. cbn iota.
    assert (E1 : 2 * (128 * p) <=? 128 = false) by (apply Z.leb_gt; lia). rewrite E1.
    assert (E2 : 128 * p <=? 128 = false -> 2 * (128 * p) <=? 256 = false) by (intros H; apply Z.leb_gt in H; apply Z.leb_gt; lia).
    assert (E3 : 128 * p <=? 128 = true -> 2 * (128 * p) <=? 256 = true) by (intros H; apply Z.leb_le in H; apply Z.leb_le; lia).
    destruct (128 * p <=? 128); [rewrite E3 by auto|rewrite E2 by auto]; destruct (128 * p <=? 256);
      (destruct (rconf_ok _ HV); rw_flags; destruct (use_avx A) eqn:EA; try reflexivity; vimp HV).
  Qed.
  Section F.
    Variable f : Z -> Z.
    Hypothesis Hf : forall x, 0 <= x < 2 ^ 32 -> 0 <= f x < 2 ^ 64.
    Notation U0 R' := (cvt_up R' f 0).
    Lemma up_move a : reg 128 a -> up_ok R128 R128 f a [U0 128 a; U0 128 (lsh 32 128 4 (p_move_l 4 2) [a])].
    Proof.
      intros Ha. apply up_two; [apply (cvt_up_reg R128)|apply (cvt_up_reg R128)|]. intros i Hi. change (rbits R128 / 64) with 2 in *.
      rewrite !(lane_up f Hf R128) by exact Hi. rewrite !Z.add_0_l. split; [reflexivity|]. f_equal.
      pose proof (lane_lsh 32 128 4 (p_move_l 4 2) [a] 0 i eq_refl ltac:(lia) ltac:(split; reflexivity || discriminate)) as L. change (4 * 0 + i) with i in L. rewrite L.
      unfold p_move_l. destruct (Z.ltb_spec (i + 2) 4); [|lia]. cbn [nth]. f_equal. lia.
    Qed.
    Lemma up_high a : up_ok R128 R128 f a [U0 128 a; cvt_up 128 f 2 a].
    Proof.
      apply up_two; [apply (cvt_up_reg R128)|apply (cvt_up_reg R128)|]. intros i Hi. change (rbits R128 / 64) with 2 in *.
      rewrite !(lane_up f Hf R128) by exact Hi. rewrite Z.add_0_l. split; reflexivity.
    Qed.
    Lemma up_split s a : s <> R128 -> up_ok s s f a [U0 (rbits s) (fst (i_split1 s a)); U0 (rbits s) (snd (i_split1 s a))].
    Proof.
      intros Hs. apply up_two; [apply cvt_up_reg|apply cvt_up_reg|]. intros i Hi. rewrite !lane_up by auto. rewrite Z.add_0_l.
      destruct s; [contradiction| |]; cbn [i_split1 fst snd rbits] in *; unfold mm_extract128, mm_extract256.
      - change (256 / 64) with 4 in *. pose proof (lane_lane 32 4 0 i a) as L0. pose proof (lane_lane 32 4 1 i a) as L1. change (32 * 4) with 128 in *. rewrite L0, L1 by lia. change (0 * 4 + i) with i. change (1 * 4 + i) with (4 + i). auto.
      - change (512 / 64) with 8 in *. pose proof (lane_lane 32 8 0 i a) as L0. pose proof (lane_lane 32 8 1 i a) as L1. change (32 * 8) with 256 in *. rewrite L0, L1 by lia. change (0 * 8 + i) with i. change (1 * 8 + i) with (8 + i). auto.
    Qed.
  End F.
  Notation ok f s a op := (exists l, op = Ok l /\ up_ok s (dreg A s) f a l).
  Theorem i_to_float64_f_ok s a : avail_flt A s = true -> reg (rbits s) a -> ok f_widen s a (i_to_float64_f A s a).
  Proof.
    intros HA Ha. pose proof (fun x (_ : 0 <= x < 2 ^ 32) => proj2 (f_widen_ok x)) as Hf. unfold cvtps_pd in *.
    destruct s; cbn [i_to_float64_f avail_flt dreg rbits] in *.
    - assert (H1 : up_ok R128 R256 f_widen a [cvt_up 256 f_widen 0 a]) by (apply up_one; auto).
      pose proof (up_move f_widen Hf a Ha) as H2. pose proof (up_high f_widen Hf a) as H3.
      assert (HZ : forall hi, i_zip A F32 R128 hi 0 a = Ok (lsh 32 128 4 (p_zip 4 hi) [0; a])) by (intros hi; apply zip_ok; auto; apply reg0; lia).
      assert (H4 : up_ok R128 R128 f_widen a [xvcvspdp (lsh 32 128 4 (p_zip 4 false) [0; a]); xvcvspdp (lsh 32 128 4 (p_zip 4 true) [0; a])]).
      { apply up_two; [apply pack_reg; reflexivity|apply pack_reg; reflexivity|]. intros i Hi. change (rbits R128 / 64) with 2 in *. unfold xvcvspdp.
        rewrite !lane_pack by (auto; reflexivity). rewrite !wrap_small by (apply Hf, lane_range; lia).
        assert (E : i = 0 \/ i = 1) by lia.
        pose proof (fun hi => lane_lsh 32 128 4 (p_zip 4 hi) [0; a] 0 (2 * i + 1) eq_refl ltac:(lia) ltac:(split; reflexivity || discriminate)) as L.
        change (4 * 0 + (2 * i + 1)) with (2 * i + 1) in L. rewrite !L. destruct E as [-> | ->]; split; reflexivity. }
      assert (HM : i_move_l A F32 R128 2 a = Ok (lsh 32 128 4 (p_move_l 4 2) [a])).
      { apply (i_move_l_ok A F32 R128 2 a HV eq_refl Ha); [split; [discriminate|reflexivity]|reflexivity]. }
      rewrite HM, !HZ. cbn [bind]. unfold use_neon64, use_neon32. unfold cvtps_pd.
      set (r1 := cvt_up 256 f_widen 0 a) in *. set (r2 := [cvt_up 128 f_widen 0 a; cvt_up 128 f_widen 0 (lsh _ _ _ _ _)]) in *. set (r3 := [cvt_up 128 f_widen 0 a; cvt_up 128 f_widen 2 a]) in *. set (r4 := [xvcvspdp _; _]) in *.
      clearbody r1 r2 r3 r4. clear Hf HM HZ Ha HA.
      fam HV; rw_flags; cbn [orb andb negb]; repeat split_if; cbn [orb andb negb]; first [eexists; split; [reflexivity|assumption] | fcontra | vimp HV].
    - rewrite HA. destruct (use_avx512f A).
      + eexists. split; [reflexivity|]. apply up_one; auto.
      + eexists. split; [reflexivity|]. apply (up_split f_widen Hf R256); discriminate.
    - rewrite HA. eexists. split; [reflexivity|]. apply (up_split f_widen Hf R512); discriminate.
  Qed.
End W.
