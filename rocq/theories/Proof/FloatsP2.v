From Verif Require Export Proof.FloatsP.
From Coq Require Import Lia.

Lemma land_tf w x b : 0 < w -> 0 <= x < 2 ^ w -> Z.land x (tf w b) = if b then x else 0.
Proof.
  intros Hw Hx. destruct b; unfold tf; [|apply Z.land_0_r].
  unfold ones. rewrite Z.sub_1_r, <- Z.ones_equiv, Z.land_ones by lia. apply Z.mod_small; auto.
Qed.
Lemma ldiff_tf w x b : 0 < w -> 0 <= x < 2 ^ w -> Z.ldiff x (tf w b) = if b then 0 else x.
Proof.
  intros Hw Hx. destruct b; unfold tf; [|apply Z.ldiff_0_r].
  unfold ones. rewrite Z.sub_1_r, <- Z.ones_equiv, Z.ldiff_ones_r by lia.
  rewrite Z.shiftr_div_pow2, Z.div_small by lia. apply Z.shiftl_0_l.
Qed.
Lemma mm_cmp_f_tfv w R p a b : mm_cmp_f w R p a b = tfv w R (fun i => p (lane w i a) (lane w i b)).
Proof. reflexivity. Qed.

Theorem liftM1_k k w s (op : Z -> res Z) p :
  (forall a, reg (rbits s) a -> Rok (mrelk k w s (fun i => p (lane (wb w) i a))) (op a)) ->
  computesM1_k k w s (vec_impl1 op) p.
Proof.
  intros Hop va. induction va as [|a va IH]; intros Ha.
  - exists []. repeat split; try constructor.
  - apply wfv_cons in Ha as [Hr Ha]. destruct (IH Ha) as (vm & E & L & EM).
    destruct (proj1 (Rok_ex _ _) (Hop a Hr)) as (m & Em & Hm).
    exists (m :: vm). cbn [vec_impl1]. rewrite Em, E. cbn [bind]. split; [reflexivity|]. split; [cbn; lia|].
    rewrite !lanes_cons, map_app. unfold elems at 1. rewrite map_map.
    apply (masks_cons _ _ _ _ _ (fun i => p (lane (wb w) i a))); auto.
Qed.

Section F.
  Variables (A : arch) (d : bool) (s : rsz).
  Hypotheses (HV : valid_arch A = true) (HA : avail_flt A s = true).
  Notation w := (fw d).
  Notation R := (rbits s).
  Notation frel := (frel A d s).
  Let Hw : 0 < w := fw_pos d.
  Let HR : 0 < R. Proof. destruct s; reflexivity. Qed.
  Let n16 : R / w <= 16 := proj2 (fnl d s).

  Lemma f_unmask_reg p : reg R (tfv w R p).
  Proof. apply tfv_reg; auto. Qed.
  Lemma frel_null m p : use_null A = true -> s = R128 -> frel p m -> m = pack 8 (8 * (128 / w)) (fun i => Z.b2z (p i)).
  Proof.
    intros HN Es Hm. unfold FloatsP.frel, mrelk in Hm. rewrite (mk_flt_eq A d s HV HA) in Hm.
    assert (E1 : null128 A d = true) by (unfold null128; rewrite HN; reflexivity).
    rewrite (null128_vl A d HV E1), E1 in Hm. rewrite Es in Hm. exact Hm.
  Qed.
  Lemma frel_bits m p : (s = R512 \/ use_avx512vl A = true) -> frel p m -> 0 <= m /\ forall i, 0 <= i < R / w -> Z.testbit m i = p i.
  Proof.
    intros Hs Hm. unfold FloatsP.frel, mrelk in Hm. rewrite (mk_flt_eq A d s HV HA) in Hm.
    destruct Hs as [-> | E]; [exact Hm|]. rewrite E in Hm. destruct s; exact Hm.
  Qed.
  Theorem f_bit_and_vm_ok a m p : reg R a -> frel p m ->
    f_bit_and_vm A d s a m = Ok (pack w R (fun i => if p i then lane w i a else 0)).
  Proof.
    intros Ha Hm. unfold f_bit_and_vm.
    assert (Hvia : (let* v := unmask_f A d s m in f_bit_and A d s a v) = Ok (pack w R (fun i => if p i then lane w i a else 0))).
    { rewrite (unmask_f_ok A d s HA m p) by auto. cbn [bind]. rewrite f_bit_and_ok by (auto using f_unmask_reg). f_equal.
      apply (reg_lanes w R); auto. 
      intros i Hi. rewrite lane_land, lane_tfv, lane_pack, land_tf by (auto; lia).
      destruct (p i); rewrite ?wrap_lane; auto. }
    rewrite Hvia. clear Hvia.
    assert (Hmz : (s = R512 \/ use_avx512vl A = true) -> Ok (mm_maskz_mov w R m a) = Ok (pack w R (fun i => if p i then lane w i a else 0))).
    { intros Hs. destruct (frel_bits m p Hs Hm) as [H0 Hb]. f_equal. apply pack_ext; auto. intros i Hi. rewrite Hb by auto. reflexivity. }
    apply (fl_sizes_P A s (fun r => r = Ok (pack w R (fun i => if p i then lane w i a else 0)))); auto.
    - intros Es. destruct (use_null A) eqn:EN.
      + rewrite (frel_null m p EN Es Hm). rewrite Es. apply (nloop_pack (ut (few d))); [exact (fwok d R128)|].
        change (snd (ut (few d))) with w. intros i Hi. rewrite (c_bool_mnull (few d) R128) by (rewrite ?fwb; auto). eexists; split; [reflexivity|].
        destruct (p i); cbn [snd el c_lit]; [|reflexivity]. change (snd (ut (few d))) with w. rewrite u_cconv by apply flane. reflexivity.
      + destruct (use_avx512vl A); auto.
    - intros Es _. destruct (use_avx512vl A); auto.
  Qed.
  Theorem f_bit_andnot_vm_ok a m p : reg R a -> frel p m ->
    f_bit_andnot_vm A d s a m = Ok (pack w R (fun i => if p i then 0 else lane w i a)).
  Proof.
    intros Ha Hm. unfold f_bit_andnot_vm.
    assert (Hvia : (let* v := unmask_f A d s m in f_bit_andnot A d s a v) = Ok (pack w R (fun i => if p i then 0 else lane w i a))).
    { rewrite (unmask_f_ok A d s HA m p) by auto. cbn [bind]. rewrite f_bit_andnot_ok by (auto using f_unmask_reg). f_equal.
      apply (reg_lanes w R); auto. 
      intros i Hi. rewrite lane_ldiff, lane_tfv, lane_pack, ldiff_tf by (auto; lia).
      destruct (p i); rewrite ?wrap_lane; auto. }
    rewrite Hvia. clear Hvia.
    assert (Hmz : forall n, R / w <= n -> (s = R512 \/ use_avx512vl A = true) ->
      Ok (mm_maskz_mov w R (wrap n (Z.lnot m)) a) = Ok (pack w R (fun i => if p i then 0 else lane w i a))).
    { intros n Hn Hs. destruct (frel_bits m p Hs Hm) as [H0 Hb]. f_equal. apply pack_ext; auto. intros i Hi.
      rewrite testbit_wrap, Z.lnot_spec, Hb by lia. destruct (Z.ltb_spec i n); [|lia]. destruct (p i); reflexivity. }
    apply (fl_sizes_P A s (fun r => r = Ok (pack w R (fun i => if p i then 0 else lane w i a)))); auto.
    - intros Es. destruct (use_null A) eqn:EN.
      + rewrite (frel_null m p EN Es Hm). rewrite Es. apply (nloop_pack (ut (few d))); [exact (fwok d R128)|].
        change (snd (ut (few d))) with w. intros i Hi. rewrite (c_bool_mnull (few d) R128) by (rewrite ?fwb; auto). eexists; split; [reflexivity|].
        destruct (p i); cbn [snd el c_lit]; [reflexivity|]. change (snd (ut (few d))) with w. rewrite u_cconv by apply flane. reflexivity.
      + destruct (use_avx512vl A); auto. apply Hmz; auto. apply (n8 A); auto. rewrite Es; discriminate.
    - intros Es _. destruct (use_avx512vl A); auto. apply Hmz; auto. apply (n8 A); auto. rewrite Es; discriminate.
    - intros Es _. assert (E5 : 512 = R) by (rewrite Es; reflexivity). rewrite E5. apply Hmz; auto.
  Qed.

  (** comparisons *)
  Lemma frel_cmpmask p q a b : (s = R512 \/ use_avx512vl A = true) ->
    (forall i, 0 <= i < R / w -> p (lane w i a) (lane w i b) = q i) -> frel q (mm_cmp_f_mask w R p a b).
  Proof.
    intros Hs Hp. apply (frel_ext A d s _ _ _ Hp). unfold FloatsP.frel, mrelk. rewrite (mk_flt_eq A d s HV HA).
    assert (E : match s with R512 => KBits | R256 => if use_avx512vl A then KBits else KVec
      | R128 => if use_avx512vl A then KBits else if null128 A d then KNull else KVec end = KBits).
    { destruct Hs as [-> | ->]; [reflexivity|destruct s; reflexivity]. }
    rewrite E. apply kmask_rel. exact (fwok d s).
  Qed.
  Lemma frel_cmp p q a b : mk_flt A d s = KVec ->
    (forall i, 0 <= i < R / w -> p (lane w i a) (lane w i b) = q i) -> frel q (mm_cmp_f w R p a b).
  Proof.
    intros EK Hp. apply (frel_ext A d s _ _ _ Hp). unfold FloatsP.frel, mrelk. rewrite EK. reflexivity.
  Qed.
  Lemma fcmp_ok p q nul neon a b P :
    (ftz A d = false -> forall i, 0 <= i < R / w -> p (lane w i a) (lane w i b) = P i) ->
    (ftz A d = false -> forall i, 0 <= i < R / w -> q (lane w i a) (lane w i b) = P i) ->
    (at_nul A d -> s = R128 -> mk_flt A d s = KNull -> Rok (frel P) nul) ->
    (at_hw A d -> s = R128 -> mk_flt A d s = KVec -> Rok (frel P) neon) ->
    Rok (frel P) (fcmp A d s p q nul neon a b).
  Proof.
    intros Hp Hq Hn Hh. unfold fcmp. apply (fl_sizes_P A s (Rok (frel P))); auto; intros Es.
    - apply (fl_cases A d (Rok (frel P))); auto.
      + intros H. apply Hn; auto. rewrite Es. apply H.
      + intros H. pose proof (x_mk _ _ H) as EK. rewrite <- Es in EK. specialize (Hp (x_z _ _ H)).
        assert (E1 : 128 = R) by (rewrite Es; reflexivity). rewrite E1.
        destruct (use_avx512vl A) eqn:EV; cbn [Rok]; [apply frel_cmpmask|apply frel_cmp]; auto.
      + intros H. apply Hh; auto. rewrite Es. apply H.
      + intros H. apply Hh; auto. rewrite Es. apply H.
      + intros H Hz. specialize (Hq Hz). assert (E1 : 128 = R) by (rewrite Es; reflexivity). rewrite E1.
        apply frel_cmp; auto. rewrite Es. apply H.
    - intros Hav. specialize (Hp (ftz_x86 A d HV (avx_sse A HV Hav))).
      assert (E1 : 256 = R) by (rewrite Es; reflexivity). rewrite E1.
      destruct (use_avx512vl A) eqn:EV; cbn [Rok]; [apply frel_cmpmask|apply frel_cmp]; auto.
      rewrite (mk_flt_eq A d s HV HA), Es, EV. reflexivity.
    - intros Hav. specialize (Hp (ftz_x86 A d HV (avx_sse A HV (avx512_avx A HV Hav)))).
      assert (E1 : 512 = R) by (rewrite Es; reflexivity). rewrite E1. apply frel_cmpmask; auto.
  Qed.
  Lemma fz_f x : ftz A d = false -> fz (ftz A d) w x = x.
  Proof. intros ->. reflexivity. Qed.
  Lemma fcmp_d_ok (p q : Z -> Z -> Z -> bool) a b : (forall x y, p w x y = q w x y) ->
    Rok (frel (fun i => p w (fz (ftz A d) w (lane w i a)) (fz (ftz A d) w (lane w i b)))) (fcmp_d p q A d s a b).
  Proof.
    intros Hpq. unfold fcmp_d. apply fcmp_ok.
    - intros Hz i Hi. rewrite !fz_f by auto. reflexivity.
    - intros Hz i Hi. rewrite !fz_f by auto. auto.
    - intros H Es EK. apply null_fcmp_ok; auto. intros i Hi. rewrite !fz_f by apply H. reflexivity.
    - intros H Es EK. assert (E1 : 128 = R) by (rewrite Es; reflexivity). rewrite E1. apply frel_cmp; auto.
  Qed.
  Notation z := (fz (ftz A d) w).
  Theorem f_cmp_neq_ok a b : Rok (frel (fun i => f_neq w (z (lane w i a)) (z (lane w i b)))) (f_cmp_neq A d s a b).
  Proof.
    unfold f_cmp_neq.
    assert (Hvia : Rok (frel (fun i => f_neq w (z (lane w i a)) (z (lane w i b))))
      (let* m := f_cmp_eq A d s a b in f_bit_not_m A d s m)).
    { eapply Rok_bind; [apply (fcmp_d_ok f_eq f_eq a b); reflexivity|]. intros m Hm. cbn beta in Hm. apply (f_bit_not_m_ok A d s); auto. }
    apply fcmp_ok; auto.
    - intros Hz i Hi. rewrite !fz_f by auto. reflexivity.
    - intros Hz i Hi. rewrite !fz_f by auto. reflexivity.
    - intros H Es EK. destruct (negb d && use_neon_no_flt_sp A); [exact Hvia|].
      apply null_fcmp_ok; auto. intros i Hi. rewrite !fz_f by apply H. reflexivity.
  Qed.
  Lemma f_neq_self x : f_neq w x x = f_nan w x.
  Proof. unfold f_neq, f_eq, f_unord. rewrite Z.eqb_refl, orb_diag, andb_true_r, negb_involutive. reflexivity. Qed.
  Lemma fmant_lt : 0 < 2 ^ fmant w /\ 2 ^ fmant w < f_inf w /\ f_inf w + 2 ^ (fmant w - 1) < 2 ^ (w - 1).
  Proof. destruct d; vm_compute; repeat split. Qed.
  Lemma f_mag_range x : 0 <= f_mag w x < 2 ^ (w - 1).
  Proof. apply Z.mod_pos_bound. apply pow2_pos. lia. Qed.
  Lemma f_mag_sign b : f_mag w (f_sign w b) = 0.
  Proof. destruct d, b; reflexivity. Qed.
  Lemma f_mag_flush x : f_mag w (f_flush w x) = if f_denormal w x then 0 else f_mag w x.
  Proof. unfold f_flush. destruct (f_denormal w x); auto. apply f_mag_sign. Qed.
  Lemma f_nan_z x : f_nan w (z x) = f_nan w x.
  Proof.
    unfold fz. destruct (ftz A d); auto. unfold f_nan. rewrite f_mag_flush. destruct (f_denormal w x) eqn:E; auto.
    unfold f_denormal in E. apply andb_true_iff in E as [E1 E2]. apply Z.ltb_lt in E1, E2.
    destruct fmant_lt as (F1 & F2 & F3).
    destruct (Z.ltb_spec (f_inf w) 0), (Z.ltb_spec (f_inf w) (f_mag w x)); auto; lia.
  Qed.
  Theorem f_isnan_ok a : Rok (frel (fun i => f_nan w (lane w i a))) (f_isnan A d s a).
  Proof.
    unfold f_isnan. apply fcmp_ok.
    - intros _ i Hi. unfold f_unord. apply orb_diag.
    - intros _ i Hi. unfold f_unord. apply orb_diag.
    - intros H Es EK. apply null_fcmp_ok; auto.
    - intros _ _ _. eapply Rfrel_ext; [|apply f_cmp_neq_ok]. intros i Hi. cbv beta. rewrite f_neq_self. apply f_nan_z.
  Qed.
  Theorem f_isnan2_ok a b : Rok (frel (fun i => f_nan w (lane w i a) || f_nan w (lane w i b))) (f_isnan2 A d s a b).
  Proof.
    unfold f_isnan2.
    assert (Hboth : Rok (frel (fun i => f_nan w (lane w i a) || f_nan w (lane w i b)))
      (let* x := f_isnan A d s a in let* y := f_isnan A d s b in f_bit_or_mm A d s x y)).
    { eapply Rok_bind; [apply f_isnan_ok|]. intros x Hx. eapply Rok_bind; [apply f_isnan_ok|]. intros y Hy.
      apply f_bit_or_mm_ok; auto. }
    apply fcmp_ok; auto.
    intros H Es EK. destruct (negb d && use_neon_no_flt_sp A); [exact Hboth|]. apply null_fcmp_ok; auto.
  Qed.

  (** selection *)
  Lemma f_sel3_ok a b m : reg R a -> reg R b -> reg R m -> f_sel3 A d s a b m = Ok (bsel a b m).
  Proof.
    intros Ha Hb Hm. unfold f_sel3. rewrite f_bit_and_ok, f_bit_andnot_ok by auto. cbn [bind].
    rewrite f_bit_or_ok; auto.
  Qed.
  Lemma blendv_f_bsel a b p : reg R a -> reg R b -> mm_blendv_f w R b a (tfv w R p) = bsel a b (tfv w R p).
  Proof.
    intros Ha Hb. rewrite bsel_tfv by auto. apply pack_ext; auto. intros i Hi.
    rewrite lane_tfv, tf_top by auto. reflexivity.
  Qed.
  Lemma hw_bsel a b m : vbslq m a b = bsel a b m /\ vec_sel b a m = bsel a b m /\ msa_bsel m b a = bsel a b m.
  Proof.
    unfold bsel. repeat split.
    - unfold vbslq. f_equal. apply Z.land_comm.
    - apply Z.lor_comm.
    - apply Z.lor_comm.
  Qed.
  Theorem f_bit_select_ok a b m : reg R a -> reg R b -> reg R m -> f_bit_select A d s a b m = Ok (bsel a b m).
  Proof.
    intros Ha Hb Hm. unfold f_bit_select. destruct (hw_bsel a b m) as (E1 & E2 & E3). rewrite E1, E2, E3, f_sel3_ok by auto.
    assert (W1 : wok 1 R = true) by (destruct s; reflexivity).
    rewrite (tern_bsel R) by auto.
    assert (Hx : (if use_avx512vl A then Ok (bsel a b m) else Ok (bsel a b m)) = Ok (bsel a b m)) by (destruct (use_avx512vl A); auto).
    rewrite Hx.
    apply (fl_sizes_P A s (fun r => r = Ok (bsel a b m))); auto.
    - intros Es. apply (fl_cases A d (fun r => r = Ok (bsel a b m))); auto. intros _. rewrite Es in *.
      apply (null_bit_select_ok (few d) 128); auto; apply (fwok d R128).
    - intros Es _. f_equal. rewrite Es in *. apply tern_bsel; auto.
  Qed.
  Theorem f_blend_ok a b p : reg R a -> reg R b -> f_blend A d s a b (tfv w R p) = Ok (bsel a b (tfv w R p)).
  Proof.
    intros Ha Hb. pose proof (f_unmask_reg p) as Hm. pose proof (blendv_f_bsel a b p Ha Hb) as HBL. unfold f_blend.
    set (m := tfv w R p) in *. clearbody m. destruct (hw_bsel a b m) as (E1 & E2 & E3). rewrite E1, E2, E3, f_sel3_ok by auto.
    apply (fl_sizes_P A s (fun r => r = Ok (bsel a b m))); auto.
    - intros Es. assert (E5 : 128 = R) by (rewrite Es; reflexivity). rewrite E5, HBL.
      apply (fl_cases A d (fun r => r = Ok (bsel a b m))); auto.
      + intros _. rewrite Es in *. apply (null_bit_select_ok (few d) 128); auto; apply (fwok d R128).
      + intros _. destruct (use_avx A); auto.
    - intros Es _. assert (E5 : 256 = R) by (rewrite Es; reflexivity). rewrite E5, HBL.
      destruct (d && negb (use_avx2 A) && cc_gnuc A); auto.
    - intros Es _. f_equal. rewrite Es in *. apply tern_bsel; auto.
  Qed.
  Section Sel.
    Variable sel : Z -> Z -> Z -> res Z.
    Hypothesis Hsel : forall a b p, reg R a -> reg R b -> sel a b (tfv w R p) = Ok (bsel a b (tfv w R p)).
    Lemma f_sel_m_ok vl a b m p : reg R a -> reg R b -> frel p m ->
      f_sel_m A d s vl sel a b m = Ok (pack w R (fun i => if p i then lane w i a else lane w i b)).
    Proof.
      intros Ha Hb Hm. unfold f_sel_m. set (T := Ok (pack w R (fun i => if p i then lane w i a else lane w i b))).
      assert (Hvia : (let* v := unmask_f A d s m in sel a b v) = T).
      { rewrite (unmask_f_ok A d s HA m p) by auto. cbn [bind]. rewrite Hsel by auto. unfold T. f_equal. apply bsel_tfv; auto. }
      assert (Hmb : (s = R512 \/ use_avx512vl A = true) -> Ok (mm_mask_blend w R m b a) = T).
      { intros Hs. destruct (frel_bits m p Hs Hm) as [H0 Hbt]. unfold T. f_equal. apply pack_ext; auto. intros i Hi.
        rewrite Hbt by auto. reflexivity. }
      rewrite Hvia. apply (fl_sizes_P A s (fun r => r = T)); auto.
      - intros Es. destruct (if d then null128 A d else use_null A) eqn:EN.
        + assert (E1 : null128 A d = true) by (destruct d; [exact EN|unfold null128; rewrite EN; reflexivity]).
          unfold FloatsP.frel, mrelk in Hm. rewrite (mk_flt_eq A d s HV HA), (null128_vl A d HV E1), E1 in Hm.
          rewrite Es in Hm. cbn [mask_rel rbits] in Hm. unfold T. rewrite Es. subst m.
          apply (nloop_pack (ut (few d))); [exact (fwok d R128)|].
          change (snd (ut (few d))) with w. intros i Hi. rewrite (c_bool_mnull (few d) R128) by (rewrite ?fwb; auto). eexists; split; [reflexivity|].
          destruct (p i); cbn [snd el]; change (snd (ut (few d))) with w; rewrite u_cconv by apply flane; reflexivity.
        + destruct vl; cbn [andb]; auto. destruct (use_avx512vl A) eqn:EV; auto.
      - intros Es _. destruct (use_avx512vl A) eqn:EV; auto.
    Qed.
    Lemma f_sel_mm_ok nulmm a b m p q r :
      (null128 A d = true -> s = R128 -> nulmm = null_blend_mask_mm) ->
      frel p a -> frel q b -> frel r m ->
      Rok (frel (fun i => if r i then p i else q i)) (f_sel_mm A d s nulmm sel a b m).
    Proof.
      intros Hnul Ha Hb Hm. unfold f_sel_mm.
      rewrite (unmask_f_ok A d s HA m r), (unmask_f_ok A d s HA a p), (unmask_f_ok A d s HA b q) by auto. cbn [bind].
      rewrite Hsel by (apply f_unmask_reg). cbn [bind]. rewrite bsel_tfv by (auto; apply f_unmask_reg).
      assert (E : pack w R (fun i => if r i then lane w i (tfv w R p) else lane w i (tfv w R q)) = tfv w R (fun i => if r i then p i else q i)).
      { apply pack_ext; auto. intros i Hi. rewrite !lane_tfv by auto. destruct (r i); reflexivity. }
      rewrite E. clear E.
      pose proof (f_to_mask_ok A d s HV HA (fun i => if r i then p i else q i)) as HT.
      assert (HK : forall kor kand kandn, (s = R512 \/ use_avx512vl A = true) ->
        kop_ok (R / w) kor orb -> kop_ok (R / w) kand andb -> kop_ok (R / w) (fun a b => kandn b a) (fun x y => x && negb y) ->
        Rok (frel (fun i => if r i then p i else q i)) (Ok (kor (kand a m) (kandn m b)))).
      { intros kor kand kandn Hs Ho Hn Hd. cbn [Rok].
        destruct (frel_bits a p Hs Ha) as [Ha0 Ha'], (frel_bits b q Hs Hb) as [Hb0 Hb'], (frel_bits m r Hs Hm) as [Hm0 Hm'].
        destruct (kor_sel _ kor kand kandn a b m Ho Hn Hd Ha0 Hb0 Hm0) as [H1 H2].
        unfold FloatsP.frel, mrelk. rewrite (mk_flt_eq A d s HV HA).
        assert (EK : match s with R512 => KBits | R256 => if use_avx512vl A then KBits else KVec
          | R128 => if use_avx512vl A then KBits else if null128 A d then KNull else KVec end = KBits).
        { destruct Hs as [-> | ->]; [reflexivity|destruct s; reflexivity]. }
        rewrite EK. split; auto. intros i Hi. rewrite fwb in Hi. rewrite H2, Ha', Hb', Hm' by auto. reflexivity. }
      apply (fl_sizes_P A s (Rok (frel (fun i => if r i then p i else q i)))); auto.
      - intros Es. destruct (null128 A d) eqn:EN.
        + rewrite (Hnul eq_refl Es). unfold FloatsP.frel, mrelk in *. rewrite (mk_flt_eq A d s HV HA), (null128_vl A d HV EN), EN in *.
          rewrite Es in *. cbn [mask_rel rbits] in Ha, Hb, Hm.
          eapply Rok_ok; [apply (nloop_pack c_u8 (8 * (128 / w)) _ (fun i => Z.b2z (if r i then p i else q i)))|reflexivity].
          * apply (wok_mask (few d) R128).
          * cbn [c_u8 snd]. assert (En : 8 * (128 / w) / 8 = 128 / w) by (destruct d; reflexivity). rewrite En. intros i Hi.
            rewrite Ha, Hb, Hm. rewrite (c_bool_mnull (few d) R128) by (rewrite ?fwb; auto). eexists; split; [reflexivity|].
            assert (E : forall b, cconv (false, 8) (Z.b2z b) = Z.b2z b) by (intros [|]; reflexivity).
            destruct (r i); unfold el; cbn [snd c_u8]; rewrite (lane_mnull (few d) R128) by auto; rewrite E;
              [destruct (p i)|destruct (q i)]; reflexivity.
        + destruct (use_avx512vl A) eqn:EV; auto. apply (HK k_or k_and (k_andnot 8)); auto using kop_or, kop_and.
          apply kop_andnot; [apply (n8 A); auto; rewrite Es; discriminate|lia].
      - intros Es _. destruct (use_avx512vl A) eqn:EV; auto. apply (HK k_or k_and (k_andnot 8)); auto using kop_or, kop_and.
        apply kop_andnot; [apply (n8 A); auto; rewrite Es; discriminate|lia].
      - intros Es _. apply (HK mm512_kor mm512_kand mm512_kandn); auto using kop_or16, kop_and16, kop_andn16.
    Qed.
  End Sel.
  Lemma f_kop_ok kop g a b p q : (s = R512 \/ use_avx512vl A = true) -> kop_ok (R / w) kop g ->
    frel p a -> frel q b -> frel (fun i => g (p i) (q i)) (kop a b).
  Proof.
    intros Hs Hk Ha Hb. destruct (frel_bits a p Hs Ha) as [Ha0 Ha'], (frel_bits b q Hs Hb) as [Hb0 Hb'].
    destruct (Hk a b Ha0 Hb0) as [H1 H2]. unfold FloatsP.frel, mrelk. rewrite (mk_flt_eq A d s HV HA).
    assert (EK : match s with R512 => KBits | R256 => if use_avx512vl A then KBits else KVec
      | R128 => if use_avx512vl A then KBits else if null128 A d then KNull else KVec end = KBits).
    { destruct Hs as [-> | ->]; [reflexivity|destruct s; reflexivity]. }
    rewrite EK. split; auto. intros i Hi. rewrite fwb in Hi. rewrite H2, Ha', Hb' by auto. reflexivity.
  Qed.
  Lemma f_here : f_mask_cmp_here A s = true -> s = R512 \/ use_avx512vl A = true.
  Proof. unfold f_mask_cmp_here. destruct s; auto. Qed.
  Theorem f_cmp_eq_mm_ok a b p q : f_mask_cmp_here A s = true -> frel p a -> frel q b ->
    Rok (frel (fun i => Bool.eqb (p i) (q i))) (f_cmp_eq_mm A d s a b).
  Proof.
    intros HH Ha Hb. unfold f_cmp_eq_mm. rewrite HH. apply (f_kop_ok mm512_kxnor Bool.eqb); auto using f_here.
    apply kop_xnor16; auto.
  Qed.
  Theorem f_cmp_neq_mm_ok a b p q : f_mask_cmp_here A s = true -> frel p a -> frel q b ->
    Rok (frel (fun i => xorb (p i) (q i))) (f_cmp_neq_mm A d s a b).
  Proof.
    intros HH Ha Hb. unfold f_cmp_neq_mm. rewrite HH. apply (f_kop_ok mm512_kxor xorb); auto using f_here.
    apply kop_xor16; auto.
  Qed.
End F.
