(** Conversions of float64 to float32 and to 32-bit integers *)
From Verif Require Import Proof.FloatsP3 Proof.FloatRoundP Proof.FArithP Proof.FConvP Proof.FConvP2 Proof.FConv64P Proof.CastP Proof.CmpP Proof.ConvertP Proof.ConvertP2 Proof.SplitP Proof.BlendP Proof.UnzipP Proof.FConvP3 Proof.FConvP4.
From Verif Require Export Proof.FConv64P4.
From Coq Require Import Lia.

Lemma dn_one s' s op dom P : rbits s' = 2 * rbits s ->
  (forall a, reg (rbits s') a -> forallb dom (elems 64 (nl 64 (rbits s')) a) = true -> exists r, op [a] = Ok r /\ reg (rbits s) r /\
     Forall2 P (elems 64 (nl 64 (rbits s')) a) (elems 32 (nl 32 (rbits s)) r)) -> dn s' s op dom P.
Proof.
  intros E H l Wl Ll Hd. destruct l as [|a [|b l]]; [exfalso; cbn [length] in Ll; destruct s; cbn [rbits] in *; lia| |exfalso; cbn [length] in Ll; destruct s; cbn [rbits] in *; lia].
  rewrite lanes1 in *. apply wfv_cons in Wl. apply H; tauto.
Qed.
Lemma dn_two s op dom P :
  (forall a b, reg (rbits s) a -> reg (rbits s) b -> forallb dom (elems 64 (nl 64 (rbits s)) a ++ elems 64 (nl 64 (rbits s)) b) = true -> exists r, op [a; b] = Ok r /\ reg (rbits s) r /\
     Forall2 P (elems 64 (nl 64 (rbits s)) a ++ elems 64 (nl 64 (rbits s)) b) (elems 32 (nl 32 (rbits s)) r)) -> dn s s op dom P.
Proof.
  intros H l Wl Ll Hd. destruct l as [|a [|b [|c l]]]; [exfalso; destruct s; cbn [rbits length] in *; lia|exfalso; destruct s; cbn [rbits length] in *; lia| |exfalso; destruct s; cbn [rbits length] in *; lia].
  rewrite lanes_cons, lanes1 in *. apply wfv_cons in Wl. destruct Wl as [Ha Wl]. apply wfv_cons in Wl. destruct Wl as [Hb _]. apply H; auto.
Qed.
Section V.
  Variable A : arch.
  Hypothesis HV : valid_arch A = true.
  Definition to_f_d (s : rsz) (x : Z) : Z := match s with R128 => f_narrow x | _ => if use_avx512f A then f_chop x else f_narrow x end.
  Lemma f_narrow_ran x : 0 <= f_narrow x < 2 ^ 32. Proof. apply f_narrow_ok. Qed.
  Lemma f_chop_ran x : 0 <= f_chop x < 2 ^ 32. Proof. apply f_chop_ok. Qed.
  Theorem to_float32_d_dn s : avail_flt A s = true -> use_msa A = false -> dn (dreg A s) s (i_to_float32_d A s) all_lanes (is (to_f_d s)).
  Proof.
    intros HA HMS. pose proof (fun x (_ : 0 <= x < 2 ^ 64) => f_narrow_ran x) as Hf. pose proof (fun x (_ : 0 <= x < 2 ^ 64) => f_chop_ran x) as Hc.
    assert (HI : forall f l r, r = map f l -> Forall2 (is f) l r) by (intros f l r ->; apply Forall2_map_in; reflexivity).
    unfold cvtpd_ps. destruct s; cbn [avail_flt dreg] in *.
    - destruct (use_avx A) eqn:EX.
      + apply dn_one; [reflexivity|]. intros a Ha _. cbn [i_to_float32_d]. rewrite EX. unfold cvtpd_ps. eexists. split; [reflexivity|].
        destruct (d1_down f_narrow Hf R256 R128 a eq_refl) as [Hr He]. split; [exact Hr|]. apply HI. exact He.
      + apply dn_two. intros a b Ha Hb _.
        assert (G : exists r, i_to_float32_d A R128 [a; b] = Ok r /\ d2 f_narrow R128 a b r).
        { cbn [i_to_float32_d]. unfold cvtpd_ps, use_neon64.
          assert (H1 : d2 f_narrow R128 a b (Z.lor (lane 64 0 (cvt_down 128 128 f_narrow a)) (Z.shiftl (lane 64 0 (cvt_down 128 128 f_narrow b)) 64))).
          { apply (d2_halves f_narrow); try (apply lane_range; lia); intros i Hi.
            - pose proof (lane_lane 32 2 0 i (cvt_down 128 128 f_narrow a)) as L. change (32 * 2) with 64 in L. rewrite L by lia. apply (lane_down f_narrow Hf 128 128); [reflexivity|exact Hi|change (128 / 32) with 4; lia].
            - pose proof (lane_lane 32 2 0 i (cvt_down 128 128 f_narrow b)) as L. change (32 * 2) with 64 in L. rewrite L by lia. apply (lane_down f_narrow Hf 128 128); [reflexivity|exact Hi|change (128 / 32) with 4; lia]. }
          assert (H2 : d2 f_narrow R128 a b (Z.lor (cvt_down 128 64 f_narrow a) (Z.shiftl (cvt_down 128 64 f_narrow b) 64))).
          { apply (d2_halves f_narrow); try (apply (pack_reg 32 64); reflexivity); intros i Hi; apply (lane_down f_narrow Hf 128 64); [reflexivity|exact Hi|exact (proj2 Hi)|reflexivity|exact Hi|exact (proj2 Hi)]. }
          pose proof (d2_words f_narrow Hf a b) as H3.
          assert (H4 : d2 f_narrow R128 a b (pack 32 128 (fun i => lane 32 (2 * (i mod 2)) (pack 32 128 (fun j => f_narrow (lane 64 (j / 2) (if i <? 2 then a else b))))))).
          { apply d2_128; [apply pack_reg; reflexivity|]. intros i Hi. assert (HM : 0 <= i mod 2 < 2) by (apply Z.mod_pos_bound; lia).
            rewrite lane_pack by (reflexivity || exact Hi). rewrite lane_pack by (reflexivity || (change (128 / 32) with 4; lia)). rewrite wrap_wrap.
            replace (2 * (i mod 2) / 2) with (i mod 2) by (rewrite Z.mul_comm, Z.div_mul; lia). apply wrap_small, Hf. destruct (i <? 2); apply lane_range; lia. }
          set (r1 := Z.lor (lane _ _ _) _) in *. set (r2 := Z.lor (cvt_down 128 64 _ _) _) in *. set (r3 := pack 32 128 (fun i => f_narrow _)) in *. set (r4 := pack 32 128 (fun i => lane _ _ _)) in *.
          cbv zeta. fold r4. clearbody r1 r2 r3 r4. clear Hf Hc HI Ha Hb. rewrite HMS. revert EX HMS.
          fam HV; rw_flags; cbn [orb andb negb]; repeat split_if; cbn [orb andb negb]; intros; first [eexists; split; [reflexivity|assumption] | fcontra | vimp HV]. }
        destruct G as (r & -> & Hr & He). exists r. split; [reflexivity|]. split; [exact Hr|]. apply HI. exact He.
    - unfold i_to_float32_d, to_f_d, cvtpd_ps. destruct (use_avx512f A) eqn:E5.
      + apply dn_one; [reflexivity|]. intros a Ha _. eexists. split; [reflexivity|].
        destruct (d1_down f_chop Hc R512 R256 a eq_refl) as [Hr He]. split; [exact Hr|]. apply HI. exact He.
      + apply dn_two. intros a b Ha Hb _. rewrite HA. cbn [negb andb]. eexists. split; [reflexivity|].
        destruct (d2_join f_narrow R128 R256 a b (cvt_down 256 128 f_narrow a) (cvt_down 256 128 f_narrow b)) as [Hr He]; [left; auto|apply (d1_down f_narrow Hf R256 R128); reflexivity|apply (d1_down f_narrow Hf R256 R128); reflexivity|].
        split; [exact Hr|]. apply HI. exact He.
    - unfold i_to_float32_d, to_f_d. apply dn_two. intros a b Ha Hb _. rewrite HA. eexists. split; [reflexivity|].
      destruct (d2_join f_chop R256 R512 a b (cvt_down 512 256 f_chop a) (cvt_down 512 256 f_chop b)) as [Hr He]; [right; auto|apply (d1_down f_chop Hc R512 R256); reflexivity|apply (d1_down f_chop Hc R512 R256); reflexivity|].
      split; [exact Hr|]. apply HI. exact He.
  Qed.
  (** MSA: the two halves of the result are exchanged *)
  Theorem to_float32_d_msa a b : use_msa A = true -> i_to_float32_d A R128 [a; b] = Ok (msa_fexdo a b) /\ d2 f_narrow R128 b a (msa_fexdo a b).
  Proof.
    intros HM. split; [|apply (d2_words f_narrow (fun x _ => f_narrow_ran x))]. cbn [i_to_float32_d]. unfold use_neon64. revert HM.
    fam HV; rw_flags; cbn [orb andb negb]; repeat split_if; intros HM; first [reflexivity | discriminate HM | fcontra | vimp HV].
  Qed.
  (** which C conversions, undefined outside the range, are used *)
  Definition c_doubles : bool := negb (use_sse2 A || use_neon64 A || use_vsx206 A || use_msa A).
  Definition to_i_d (sg : bool) (x : Z) : Z :=
    if use_sse2 A then if sg then dcvtt_s x else dcvtt_u x
    else if use_neon64 A then if sg then qmovn_s (dsat_s x) else qmovn_u (dsat_u x)
    else if use_vsx206 A || use_msa A then wrap 32 (if sg then dsat_s x else dsat_u x)
    else wrap 32 (f_int 64 x).
  Definition dfits (sg : bool) : Z -> bool := if sg then dfits_s32 else dfits_u32.
  Definition d_dom (sg : bool) (x : Z) : bool := dfits sg x || negb c_doubles.
  Lemma dcvtt_s_ran x : 0 <= dcvtt_s x < 2 ^ 32.
  Proof. unfold dcvtt_s. destruct (dfits_s32 x); [apply wrap_range; lia|split; [discriminate|reflexivity]]. Qed.
  Lemma dfits_u_ran x : dfits_u32 x = true -> 0 <= f_int 64 x < 2 ^ 32.
  Proof. intros H. unfold dfits_u32 in H. apply FConvP3.fits_spec in H as [_ H]. revert H. change (2 ^ 32 - 1) with 4294967295. change (2 ^ 32) with 4294967296. lia. Qed.
  Lemma dcvtt_u_ran x : 0 <= dcvtt_u x < 2 ^ 32.
  Proof. unfold dcvtt_u. destruct (dfits_u32 x) eqn:E; [apply dfits_u_ran; auto|split; [discriminate|reflexivity]]. Qed.
  Lemma dsat_ran lo hi x : 0 <= dsat lo hi x < 2 ^ 64.
  Proof. unfold dsat. destruct (f_nan 64 x); [split; [discriminate|reflexivity]|apply wrap_range; lia]. Qed.
  Lemma qmovn_s_ran x : 0 <= qmovn_s x < 2 ^ 32. Proof. apply wrap_range. lia. Qed.
  Lemma qmovn_u_ran x : 0 <= x < 2 ^ 64 -> 0 <= qmovn_u x < 2 ^ 32.
  Proof. unfold qmovn_u. change (2 ^ 32) with 4294967296. intros H. change (4294967296 - 1) with 4294967295. lia. Qed.
  (** the instructions on the registers *)
  Lemma d2_narrow g sat a b : (forall x, 0 <= x < 2 ^ 64 -> 0 <= sat x < 2 ^ 64) -> (forall x, 0 <= x < 2 ^ 64 -> 0 <= g x < 2 ^ 32) ->
    d2 (fun x => g (sat x)) R128 a b (Z.lor (cvt_down 128 64 g (v1 64 128 sat a)) (Z.shiftl (cvt_down 128 64 g (v1 64 128 sat b)) 64)).
  Proof.
    intros Hs Hg. apply d2_halves; try (apply (pack_reg 32 64); reflexivity).
    - intros i Hi. rewrite (lane_down g Hg 128 64); [|reflexivity|exact Hi|exact (proj2 Hi)]. rewrite lane_v1 by (reflexivity || exact Hi).
      rewrite wrap_small; [reflexivity|]. apply Hs, lane_range. lia.
    - intros i Hi. rewrite (lane_down g Hg 128 64); [|reflexivity|exact Hi|exact (proj2 Hi)]. rewrite lane_v1 by (reflexivity || exact Hi).
      rewrite wrap_small; [reflexivity|]. apply Hs, lane_range. lia.
  Qed.
  Lemma d2_low sat a b : (forall x, 0 <= x < 2 ^ 64 -> 0 <= sat x < 2 ^ 64) ->
    exists r, i_unzip4_lo A I32 R128 (v1 64 128 sat a) (v1 64 128 sat b) = Ok r /\ d2 (fun x => wrap 32 (sat x)) R128 a b r.
  Proof.
    intros Hs. pose proof (i_unzip_lo_ok A I32 R128 (v1 64 128 sat a) (v1 64 128 sat b) HV eq_refl ltac:(apply v1_reg; reflexivity) ltac:(apply v1_reg; reflexivity)) as E.
    cbn [i_unzip_lo] in E. rewrite E. eexists. split; [reflexivity|]. cbn [rbits]. change (eb I32) with 32. change (en I32) with 4.
    apply d2_128; [apply lsh_reg; reflexivity|]. intros i Hi.
    pose proof (lane_lsh 32 128 4 (p_unzip_lo 4) [v1 64 128 sat a; v1 64 128 sat b] 0 i eq_refl Hi ltac:(split; reflexivity || discriminate)) as L. change (4 * 0 + i) with i in L. rewrite L. clear L E.
    assert (HL : forall z j, 0 <= j < 2 -> lane 32 (2 * j) (v1 64 128 sat z) = wrap 32 (sat (lane 64 j z))).
    { intros z j Hj. pose proof (UnzipP.lane_lo 32 j (v1 64 128 sat z)) as LL. change (2 * 32) with 64 in LL. rewrite <- LL by lia. rewrite lane_v1 by (reflexivity || exact Hj).
      f_equal. apply wrap_small, Hs, lane_range. lia. }
    assert (C : i = 0 \/ i = 1 \/ i = 2 \/ i = 3) by lia.
    destruct C as [-> |[-> |[-> | ->]]]; [apply (HL a 0)|apply (HL a 1)|apply (HL b 0)|apply (HL b 1)]; lia.
  Qed.
  Lemma d2_c fits a b : (forall x, 0 <= x < 2 ^ 64 -> 0 <= wrap 32 (f_int 64 x) < 2 ^ 32) -> forallb fits (elems 64 2 a ++ elems 64 2 b) = true ->
    exists r, c_cvt64 fits a b = Ok r /\ d2 (fun x => wrap 32 (f_int 64 x)) R128 a b r.
  Proof. intros H E. unfold c_cvt64. rewrite E. eexists. split; [reflexivity|]. apply d2_words. exact H. Qed.
  Lemma F2_d1 f s' s a r : d1 f s' s a r -> reg (rbits s) r /\ Forall2 (is f) (elems 64 (nl 64 (rbits s')) a) (elems 32 (nl 32 (rbits s)) r).
  Proof. intros [H E]. split; auto. rewrite E. apply Forall2_map_in. reflexivity. Qed.
  Lemma F2_d2 f s a b r : d2 f s a b r -> reg (rbits s) r /\ Forall2 (is f) (elems 64 (nl 64 (rbits s)) a ++ elems 64 (nl 64 (rbits s)) b) (elems 32 (nl 32 (rbits s)) r).
  Proof. intros [H E]. split; auto. rewrite E. apply Forall2_map_in. reflexivity. Qed.
  Lemma forallb_imp {X} (p q : X -> bool) l : (forall x, p x = true -> q x = true) -> forallb p l = true -> forallb q l = true.
  Proof. intros H E. apply forallb_forall. intros x Hx. rewrite forallb_forall in E. auto. Qed.
  Lemma d_dom_fits sg l : c_doubles = true -> forallb (d_dom sg) l = true -> forallb (dfits sg) l = true.
  Proof. intros H. apply forallb_imp. intros x. unfold d_dom. rewrite H. cbn [negb]. rewrite orb_false_r. auto. Qed.
  Lemma avx_to_sse s : avail_flt A s = true -> s <> R128 -> use_sse2 A = true.
  Proof. intros H Hs. apply (avx_sse A HV). destruct s; [contradiction|exact H|]. apply avx512_avx; auto. Qed.
  Theorem to_int32_d_dn s : avail_flt A s = true -> dn (dreg A s) s (i_to_int32_d A s) (d_dom true) (is (to_i_d true)).
  Proof.
    intros HA. pose proof (fun x (_ : 0 <= x < 2 ^ 64) => dcvtt_s_ran x) as Hf. pose proof (avx_to_sse s HA) as HX.
    destruct s; cbn [avail_flt dreg] in *; [clear HX|specialize (HX ltac:(discriminate))|specialize (HX ltac:(discriminate))].
    - destruct (use_avx A) eqn:EX.
      + assert (HS : to_i_d true = dcvtt_s) by (unfold to_i_d; rewrite (avx_sse A HV EX); reflexivity). rewrite HS.
        apply dn_one; [reflexivity|]. intros a Ha _. cbn [i_to_int32_d]. rewrite EX. destruct (use_avx512vl A).
        * eexists. split; [reflexivity|]. apply F2_d1. apply (d1_down dcvtt_s Hf R256 R128 a eq_refl).
        * destruct (split_lanes 64 R256 R128 a) as [Wh Eh]; [red; auto 10|left; auto|]. unfold halves in *.
          destruct (i_split1 R256 a) as [a1 a2]. cbn [fst snd] in *.
          rewrite (zip_ok A I64 64 2) by (auto; apply pack_reg; reflexivity). eexists. split; [reflexivity|]. rewrite <- Eh.
          rewrite lanes_cons, lanes1. apply F2_d2. apply (d2_zip dcvtt_s Hf).
      + apply dn_two. intros a b Ha Hb Hd.
        assert (G : exists r, i_to_int32_d A R128 [a; b] = Ok r /\ d2 (to_i_d true) R128 a b r).
        { cbn [i_to_int32_d]. unfold use_neon64 in *.
          rewrite (zip_ok A I64 64 2) by (auto; apply pack_reg; reflexivity).
          pose proof (d2_zip dcvtt_s Hf a b) as H1.
          pose proof (d2_narrow qmovn_s dsat_s a b (fun x _ => dsat_ran _ _ x) (fun x _ => qmovn_s_ran x)) as H2.
          destruct (d2_low dsat_s a b (fun x _ => dsat_ran _ _ x)) as (r3 & E3 & H3).
          assert (H4 : c_doubles = true -> exists r, c_cvt64 dfits_s32 a b = Ok r /\ d2 (fun x => wrap 32 (f_int 64 x)) R128 a b r).
          { intros HC. apply d2_c; [intros; apply wrap_range; lia|]. apply (d_dom_fits true _ HC). exact Hd. }
          rewrite E3. unfold c_doubles, to_i_d, use_neon64, use_neon32 in *. set (r1 := lsh _ _ _ _ _) in *. set (r2 := Z.lor _ _) in *. set (c := c_cvt64 _ _ _) in *. clearbody r1 r2 c.
          clear Hf HA Ha Hb Hd E3. revert H4. revert EX.
          fam HV; rw_flags; cbn [orb andb negb]; repeat split_if; cbn [orb andb negb]; intros EX' HQ; first [eexists; split; [reflexivity|assumption] | (apply HQ; reflexivity) | fcontra | vimp HV]. }
        destruct G as (r & -> & G). exists r. split; [reflexivity|]. apply F2_d2. exact G.
    - assert (HS : to_i_d true = dcvtt_s) by (unfold to_i_d; rewrite HX; reflexivity). rewrite HS. unfold i_to_int32_d. destruct (use_avx512f A) eqn:E5.
      + apply dn_one; [reflexivity|]. intros a Ha _. eexists. split; [reflexivity|]. apply F2_d1. apply (d1_down dcvtt_s Hf R512 R256 a eq_refl).
      + apply dn_two. intros a b Ha Hb _. rewrite HA. cbn [negb andb]. eexists. split; [reflexivity|]. apply F2_d2.
        apply (d2_join dcvtt_s R128 R256); [left; auto|apply (d1_down dcvtt_s Hf R256 R128); reflexivity|apply (d1_down dcvtt_s Hf R256 R128); reflexivity].
    - assert (HS : to_i_d true = dcvtt_s) by (unfold to_i_d; rewrite HX; reflexivity). rewrite HS. unfold i_to_int32_d. apply dn_two. intros a b Ha Hb _. rewrite HA. eexists. split; [reflexivity|]. apply F2_d2.
      apply (d2_join dcvtt_s R256 R512); [right; auto|apply (d1_down dcvtt_s Hf R512 R256); reflexivity|apply (d1_down dcvtt_s Hf R512 R256); reflexivity].
  Qed.
  Theorem to_uint32_d_dn s : avail_flt A s = true -> use_sse2 A = false \/ use_avx512f A = true -> dn (dreg A s) s (i_to_uint32_d A s) (d_dom false) (is (to_i_d false)).
  Proof.
    intros HA HB. pose proof (fun x (_ : 0 <= x < 2 ^ 64) => dcvtt_u_ran x) as Hf. pose proof (avx_to_sse s HA) as HX.
    destruct s; cbn [avail_flt dreg] in *; [clear HX|specialize (HX ltac:(discriminate))|specialize (HX ltac:(discriminate))].
    - destruct (use_avx A) eqn:EX.
      + assert (HS : to_i_d false = dcvtt_u) by (unfold to_i_d; rewrite (avx_sse A HV EX); reflexivity). rewrite HS.
        destruct HB as [HB|HB]; [rewrite (avx_sse A HV EX) in HB; discriminate HB|].
        apply dn_one; [reflexivity|]. intros a Ha _. cbn [i_to_uint32_d]. rewrite HB. destruct (use_avx512vl A).
        * eexists. split; [reflexivity|]. apply F2_d1. apply (d1_down dcvtt_u Hf R256 R128 a eq_refl).
        * eexists. split; [reflexivity|]. apply F2_d1. split; [apply (lane_range 128); lia|].
          change (nl 32 (rbits R128)) with 4%nat. change (nl 64 (rbits R256)) with 4%nat. unfold elems. rewrite map_map. apply map_ext_in. intros i Hi. apply in_seq in Hi.
          pose proof (lane_lane 32 4 0 (Z.of_nat i) (cvt_down 512 256 dcvtt_u a)) as L. change (32 * 4) with 128 in L. rewrite L by lia. rewrite Z.mul_0_l, Z.add_0_l.
          apply (lane_down dcvtt_u Hf 512 256); [reflexivity|change (512 / 64) with 8; lia|change (256 / 32) with 8; lia].
      + apply dn_two. intros a b Ha Hb Hd.
        assert (G : exists r, i_to_uint32_d A R128 [a; b] = Ok r /\ d2 (to_i_d false) R128 a b r).
        { cbn [i_to_uint32_d]. unfold use_neon64 in *.
          pose proof (d2_narrow qmovn_u dsat_u a b (fun x _ => dsat_ran _ _ x) (fun x Hx => qmovn_u_ran x Hx)) as H2.
          destruct (d2_low dsat_u a b (fun x _ => dsat_ran _ _ x)) as (r3 & E3 & H3).
          assert (H4 : c_doubles = true -> exists r, c_cvt64 dfits_u32 a b = Ok r /\ d2 (fun x => wrap 32 (f_int 64 x)) R128 a b r).
          { intros HC. apply d2_c; [intros; apply wrap_range; lia|]. apply (d_dom_fits false _ HC). exact Hd. }
          rewrite E3. unfold c_doubles, to_i_d, use_neon64, use_neon32 in *. set (r2 := Z.lor _ _) in *. set (c := c_cvt64 _ _ _) in *. clearbody r2 c.
          clear Hf HA Ha Hb Hd E3. revert H4. revert EX. destruct HB as [HB|HB]; revert HB;
          fam HV; rw_flags; cbn [orb andb negb]; repeat split_if; cbn [orb andb negb]; intros HB' EX' HQ; first [eexists; split; [reflexivity|assumption] | (apply HQ; reflexivity) | fcontra | vimp HV]. }
        destruct G as (r & -> & G). exists r. split; [reflexivity|]. apply F2_d2. exact G.
    - destruct HB as [HB|HB]; [rewrite HX in HB; discriminate HB|].
      assert (HS : to_i_d false = dcvtt_u) by (unfold to_i_d; rewrite HX; reflexivity). rewrite HS. unfold i_to_uint32_d. rewrite HB.
      apply dn_one; [reflexivity|]. intros a Ha _. eexists. split; [reflexivity|]. apply F2_d1. apply (d1_down dcvtt_u Hf R512 R256 a eq_refl).
    - assert (HS : to_i_d false = dcvtt_u) by (unfold to_i_d; rewrite HX; reflexivity). rewrite HS. unfold i_to_uint32_d. apply dn_two. intros a b Ha Hb _. rewrite HA. eexists. split; [reflexivity|]. apply F2_d2.
      apply (d2_join dcvtt_u R256 R512); [right; auto|apply (d1_down dcvtt_u Hf R512 R256); reflexivity|apply (d1_down dcvtt_u Hf R512 R256); reflexivity].
  Qed.
End V.
