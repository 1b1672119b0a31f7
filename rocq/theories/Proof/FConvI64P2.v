(** Conversions between floating-point numbers and 64-bit integers: the registers *)
From Verif Require Import Proof.FloatsP3 Proof.FloatRoundP Proof.FArithP Proof.FConvP Proof.FConvP2 Proof.FConvP3 Proof.FConvP4 Proof.FConv64P Proof.CastP Proof.CmpP Proof.ConvertP Proof.ConvertP2 Proof.SplitP Proof.BlendP.
From Verif Require Export Proof.FConvI64P Proof.FConv64P5.
From Coq Require Import Lia.

Lemma lift_up_dom w w' s s' f dom P T : wok w (rbits s) = true ->
  (forall a, reg (rbits s) a -> forallb dom (elems w (nl w (rbits s)) a) = true -> exists l, f a = Ok l /\ wfv s' l /\ Z.of_nat (length l) * rbits s' = 2 * rbits s /\
     Forall2 P (elems w (nl w (rbits s)) a) (lanes w' s' l)) ->
  conv_rel w w' T (2 * T) s s' (conv_each f) dom P.
Proof.
  intros Hw H va. revert T. induction va as [|a va IH]; intros T Wa La Hd.
  { exists []. split; [reflexivity|]. split; [constructor|]. split; [cbn [length] in *; lia|constructor]. }
  apply wfv_cons in Wa. destruct Wa as [Ha Wa]. rewrite lanes_cons, forallb_app in Hd. apply andb_prop in Hd as [Hd Hd2].
  destruct (H a Ha Hd) as (l & El & Wl & Ll & Hrel). destruct (IH (T - rbits s) Wa) as (vr & Ev & Wr & Lr & HF); auto.
  { cbn [length] in La. lia. }
  exists (l ++ vr). cbn [conv_each]. rewrite El. cbn [bind]. rewrite Ev. cbn [bind]. split; [reflexivity|].
  split; [apply wfv_app; auto|]. split; [rewrite app_length; lia|]. rewrite lanes_cons. unfold lanes in *. rewrite flat_map_app. apply Forall2_app; auto.
Qed.
Lemma F2_is_map f l r : Forall2 (is f) l r -> r = map f l.
Proof. intros H. induction H as [|x y l r Hxy H IH]; [reflexivity|]. cbn [map]. rewrite IH. f_equal. exact Hxy. Qed.
Section I.
  Variable A : arch.
  Hypothesis HV : valid_arch A = true.
  Hypothesis HH : has_i64_to_f64 A = true.
  Lemma has_cases : (use_avx512dq A = true /\ use_avx512f A = true /\ use_avx2 A = true /\ use_avx A = true /\ use_sse2 A = true /\ use_null A = false /\ use_neon A = false /\ use_altivec A = false /\ use_msa A = false) \/
    (use_avx512dq A = false /\ use_avx512f A = false /\ use_avx2 A = false /\ use_avx A = false /\ use_sse2 A = false /\ use_avx512vl A = false /\ (use_null A = true \/ use_null A = false /\ use_neon64 A || use_vsx207 A || use_msa A = true)).
  Proof.
    destruct (use_avx512dq A) eqn:ED.
    - left. assert (E5 : use_avx512f A = true) by (destruct (use_avx512f A) eqn:E; [reflexivity|exfalso; vimp HV]).
      pose proof (avx512_avx A HV E5) as EX. pose proof (avx_sse A HV EX) as ES. assert (E2 : use_avx2 A = true) by (destruct (use_avx2 A) eqn:E; [reflexivity|exfalso; vimp HV]).
      split; [auto|]. split; [auto|]. split; [auto|]. split; [auto|]. split; [auto|]. clear HH ED E5 EX E2. revert ES. fam HV; rw_flags; intros; first [solve [repeat split; reflexivity] | fcontra].
    - right. unfold has_i64_to_f64, use_neon64 in *. rewrite ED in HH. split; [auto|].
      assert (ES : use_sse2 A = false /\ (use_null A = true \/ use_null A = false /\ use_neon A && use_64 A || use_vsx207 A || use_msa A = true)).
      { revert HH. clear ED. fam HV; rw_flags; cbn [orb andb]; intros HI; try discriminate HI; try fcontra; (split; [reflexivity|]); first [left; reflexivity | right; split; [reflexivity|]; first [reflexivity | exact HI]]. }
      destruct ES as [ES EC]. assert (EX : use_avx A = false) by (destruct (use_avx A) eqn:E; [exfalso; vimp HV|reflexivity]).
      assert (E2 : use_avx2 A = false) by (destruct (use_avx2 A) eqn:E; [exfalso; vimp HV|reflexivity]).
      assert (E5 : use_avx512f A = false) by (destruct (use_avx512f A) eqn:E; [exfalso; vimp HV|reflexivity]).
      assert (E6 : use_avx512vl A = false) by (destruct (use_avx512vl A) eqn:E; [exfalso; vimp HV|reflexivity]).
      repeat (split; [assumption|]). exact EC.
  Qed.
  Lemma neon_vsx_msa : use_neon64 A || use_vsx207 A || use_msa A = true -> use_neon64 A || use_vsx206 A || use_msa A = true.
  Proof.
    intros H. destruct (use_neon64 A); [reflexivity|]. destruct (use_msa A); [apply orb_true_r|]. rewrite orb_false_r in *. cbn [orb] in *.
    destruct (use_vsx206 A) eqn:E6; [reflexivity|]. exfalso. vimp HV.
  Qed.
  Lemma i64_regs T : vregf A T = vreg A 64 T.
  Proof.
    unfold vregf, vreg, fast_flt, fast_int. change (64 <=? 16) with false. cbn iota.
    destruct has_cases as [(_ & E5 & E2 & EX & _)|(_ & E5 & E2 & EX & _ & E6 & _)]; rewrite ?E5, ?E2, ?EX; destruct (use_avx512bw A) eqn:EB; try reflexivity; exfalso; vimp HV.
  Qed.
  Definition d_to_i64 (sg : bool) (x : Z) : Z := if use_avx512dq A then cvtt64 sg 64 x else if use_null A then wrap 64 (f_int 64 x) else sat64 sg x.
  Lemma d_to_i64_ran sg x : 0 <= d_to_i64 sg x < 2 ^ 64.
  Proof. unfold d_to_i64. destruct (use_avx512dq A); [apply cvtt64_ran|]. destruct (use_null A); [apply wrap_range; lia|apply sat64_ran]. Qed.
  Lemma low64 (k : Z) s f a : (forall x, 0 <= f x < 2 ^ 64) -> rbits s = 64 * k -> 0 <= k -> k <= 8 -> lane (rbits s) 0 (v1 64 512 f a) = v1 64 (rbits s) f a.
  Proof.
    intros Hf E H0 Hk. apply eq_v1; [apply w64|apply (lane_range (rbits s)); destruct s; discriminate|]. intros i Hi.
    assert (Hi' : 0 <= i < k) by (rewrite E in Hi; rewrite Z.mul_comm, Z.div_mul in Hi by lia; exact Hi).
    pose proof (lane_lane 64 k 0 i (v1 64 512 f a)) as L. rewrite <- E in L. rewrite L by lia. rewrite Z.mul_0_l, Z.add_0_l.
    rewrite lane_v1; [reflexivity|reflexivity|change (512 / 64) with 8; lia].
  Qed.
  Lemma i_to_int64_d_ok sg s a : avail_flt A s = true -> (use_null A = true -> forallb (fits64 sg 64) (elems 64 (nl 64 (rbits s)) a) = true) ->
    i_to_int64_d A sg s a = Ok (v1 64 (rbits s) (d_to_i64 sg) a).
  Proof.
    intros HA HN. unfold d_to_i64. destruct has_cases as [(ED & E5 & E2 & EX & ES & _)|(ED & E5 & E2 & EX & ES & E6 & EC)].
    - rewrite ED. pose proof (fun x => cvtt64_ran sg 64 x) as HR. destruct s; cbn [i_to_int64_d]; rewrite ED, ?EX, ?E5; cbn [andb]; [| |reflexivity].
      + destruct (use_avx512vl A); [reflexivity|]. apply f_equal. apply (low64 2 R128); auto; lia.
      + destruct (use_avx512vl A); [reflexivity|]. apply f_equal. apply (low64 4 R256); auto; lia.
    - rewrite ED. destruct s; cbn [avail_flt] in HA; [|rewrite EX in HA; discriminate HA|rewrite E5 in HA; discriminate HA].
      cbn [i_to_int64_d rbits]. rewrite ED. cbn [andb]. destruct EC as [EN|[EN EC]]; rewrite EN.
      + assert (HX : use_neon64 A = false /\ use_vsx206 A = false /\ use_msa A = false). { unfold use_neon64. clear HN HH HA. revert EN. fam HV; rw_flags; cbn [andb]; intros; first [solve [repeat split; reflexivity] | fcontra]. }
        destruct HX as (-> & -> & ->). cbn [orb]. unfold c_cvt_d64. specialize (HN EN). change (nl 64 (rbits R128)) with 2%nat in HN. rewrite HN. f_equal. apply eq_v1; [reflexivity|apply v1_reg; reflexivity|]. intros i Hi. rewrite lane_v1 by (auto; reflexivity). rewrite wrap_wrap. reflexivity.
      + assert (HB : use_neon64 A || use_vsx206 A || use_msa A = true) by (exact (neon_vsx_msa EC)).
        destruct (use_neon64 A); [reflexivity|]. destruct (use_vsx206 A); [reflexivity|]. destruct (use_msa A); [reflexivity|]. discriminate HB.
  Qed.
  Definition f_to_i64 (sg : bool) (x : Z) : Z := if use_avx512dq A then cvtt64 sg 32 x else if use_null A then wrap 64 (f_int 32 x) else sat64 sg (f_widen x).
  Lemma f_to_i64_ran sg x : 0 <= f_to_i64 sg x < 2 ^ 64.
  Proof. unfold f_to_i64. destruct (use_avx512dq A); [apply cvtt64_ran|]. destruct (use_null A); [apply wrap_range; lia|apply sat64_ran]. Qed.
  Lemma i_to_int64_f_ok sg s a : avail_flt A s = true -> reg (rbits s) a ->
    (use_null A = true -> forallb (fits64 true 32) (elems 32 (nl 32 (rbits s)) a) = true) ->
    (use_avx512dq A = true -> use_avx512vl A = true \/ s <> R256) ->
    exists l, i_to_int64_f A sg s a = Ok l /\ up_ok s (dreg A s) (f_to_i64 sg) a l.
  Proof.
    intros HA Ha HN HL. unfold f_to_i64. destruct has_cases as [(ED & E5 & E2 & EX & ES & _)|(ED & E5 & E2 & EX & ES & E6 & EC)].
    - rewrite ED. pose proof (fun x (_ : 0 <= x < 2 ^ 32) => cvtt64_ran sg 32 x) as HR. destruct s; cbn [i_to_int64_f dreg]; rewrite ED, ?EX, ?E5; cbn [andb].
      + destruct (use_avx512vl A); (eexists; split; [reflexivity|]); [apply up_one; auto|].
        split; [apply wfv_cons; split; [apply (lane_range 256); lia|constructor]|]. split; [reflexivity|]. rewrite lanes1.
        change (nl 64 (rbits R256)) with 4%nat. change (nl 32 (rbits R128)) with 4%nat. unfold elems. rewrite map_map. apply map_ext_in. intros i Hi. apply in_seq in Hi.
        pose proof (lane_lane 64 4 0 (Z.of_nat i) (cvt_up 512 (cvtt64 sg 32) 0 a)) as L. change (64 * 4) with 256 in L. rewrite L by lia. rewrite Z.mul_0_l, Z.add_0_l.
        rewrite (lane_up _ HR R512) by (change (rbits R512 / 64) with 8; lia). rewrite Z.add_0_l. reflexivity.
      + destruct (HL ED) as [HL'|HL']; [rewrite HL'|contradiction]. eexists. split; [reflexivity|]. apply up_one; auto.
      + eexists. split; [reflexivity|]. apply (up_split _ HR R512); discriminate.
    - rewrite ED. destruct s; cbn [avail_flt] in HA; [|rewrite EX in HA; discriminate HA|rewrite E5 in HA; discriminate HA].
      cbn [i_to_int64_f dreg rbits] in *. rewrite ED, EX. cbn [andb]. destruct EC as [EN|[EN EC]]; rewrite EN.
      + assert (HX : use_neon64 A = false /\ use_vsx206 A = false /\ use_msa A = false). { unfold use_neon64. clear HN HH HA. revert EN. fam HV; rw_flags; cbn [andb]; intros; first [solve [repeat split; reflexivity] | fcontra]. }
        destruct HX as (-> & -> & ->). cbn [orb]. specialize (HN EN). change (nl 32 128) with 4%nat in HN. rewrite HN. eexists. split; [reflexivity|].
        apply (up_high (fun x => wrap 64 (f_int 32 x))). intros. apply wrap_range. lia.
      + assert (HB : use_neon64 A || use_vsx206 A || use_msa A = true) by (exact (neon_vsx_msa EC)).
        rewrite HB. destruct (i_to_float64_f_ok A HV R128 a eq_refl Ha) as (l & El & Wl & Ll & E). rewrite El. cbn [bind].
        cbn [dreg] in *. rewrite EX in *.
        assert (HF : relates1 64 R128 (vec_impl1 (i_to_int64_d A sg R128)) all_lanes (is (sat64 sg))).
        { apply lift_rel1; [reflexivity|]. intros b Hb _. rewrite (i_to_int64_d_ok sg R128 b eq_refl) by (rewrite EN; discriminate). eexists. split; [reflexivity|]. split; [apply v1_reg; reflexivity|].
          intros i Hi. unfold d_to_i64. rewrite ED, EN. rewrite lane_v1 by (auto; reflexivity). apply wrap_small, sat64_ran. }
        assert (HD : forallb all_lanes (lanes 64 R128 l) = true) by (apply forallb_forall; reflexivity).
        destruct (HF l Wl HD) as (vr & Ev & Wr & HP). exists vr. split; [exact Ev|]. split; [exact Wr|].
        apply F2_is_map in HP. rewrite HP, E, map_map. split; [|reflexivity].
        assert (length vr = length l) as ->; [|exact Ll]. clear - Ev. revert vr Ev. induction l as [|x l IH]; intros vr Ev; cbn [vec_impl1] in Ev; [injection Ev as <-; reflexivity|].
        destruct (i_to_int64_d A sg R128 x); try discriminate Ev. cbn [bind] in Ev. destruct (vec_impl1 _ l) as [q| |]; try discriminate Ev. cbn [bind] in Ev. injection Ev as <-. cbn [length]. rewrite (IH q); reflexivity.
  Qed.
End I.
