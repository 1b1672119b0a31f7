From Verif Require Export Model.Blend Proof.MaskP.
From Coq Require Import Lia.

Definition bsel (on off m : Z) : Z := Z.lor (Z.land on m) (Z.ldiff off m).
Lemma bsel_reg R a b m : 0 < R -> reg R a -> reg R b -> reg R m -> reg R (bsel a b m).
Proof. intros. apply lor_reg'; auto. Qed.
Lemma testbit_bsel a b m k : Z.testbit (bsel a b m) k = if Z.testbit m k then Z.testbit a k else Z.testbit b k.
Proof.
  unfold bsel. rewrite Z.lor_spec, Z.land_spec, Z.ldiff_spec.
  destruct (Z.testbit m k), (Z.testbit a k), (Z.testbit b k); reflexivity.
Qed.
Lemma lane_bsel w i a b m : 0 <= w -> 0 <= i -> lane w i (bsel a b m) = bsel (lane w i a) (lane w i b) (lane w i m).
Proof. intros. unfold bsel. rewrite lane_lor, lane_land, lane_ldiff by auto. reflexivity. Qed.
Lemma bsel_tf w x y b : 0 < w -> 0 <= x < 2 ^ w -> 0 <= y < 2 ^ w -> bsel x y (tf w b) = if b then x else y.
Proof.
  intros Hw Hx Hy. apply (bits_ext w); try lia.
  - apply bsel_reg; auto. apply tf_range; auto.
  - destruct b; auto.
  - intros k Hk. rewrite testbit_bsel. destruct b; unfold tf; [|rewrite Z.bits_0; reflexivity].
    rewrite testbit_ones by lia. destruct (Z.ltb_spec k w); [reflexivity|lia].
Qed.
Lemma bsel_tfv w R a b p : wok w R = true -> reg R a -> reg R b ->
  bsel a b (tfv w R p) = pack w R (fun i => if p i then lane w i a else lane w i b).
Proof.
  intros H Ha Hb. destruct (wok_spec _ _ H) as (Hw & HR & _). apply (reg_lanes w R); auto.
  { apply bsel_reg; auto. }
  intros i Hi. rewrite lane_bsel, lane_tfv, lane_pack by (auto; lia).
  rewrite bsel_tf by (auto; apply lane_range; lia). destruct (p i); symmetry; apply wrap_lane.
Qed.
Lemma v3_1_bsel R f a b m : wok 1 R = true -> reg R a -> reg R b -> reg R m ->
  (forall x y z, (x = 0 \/ x = 1) -> (y = 0 \/ y = 1) -> (z = 0 \/ z = 1) -> f x y z = if z =? 1 then x else y) ->
  v3 1 R f a b m = bsel a b m.
Proof.
  intros H Ha Hb Hm Hf. destruct (wok_spec _ _ H) as (_ & HR & _). symmetry. apply eq_v3; auto.
  { apply bsel_reg; auto. }
  intros i Hi. rewrite lane_bsel by lia.
  assert (B : forall x, lane 1 i x = 0 \/ lane 1 i x = 1).
  { intros. pose proof (lane_range 1 i x ltac:(lia)). lia. }
  rewrite Hf by auto. destruct (B a) as [-> | ->], (B b) as [-> | ->], (B m) as [-> | ->]; reflexivity.
Qed.
Lemma cmov_bsel R a b m : wok 1 R = true -> reg R a -> reg R b -> reg R m -> mm_cmov R a b m = bsel a b m.
Proof. intros. apply v3_1_bsel; auto. Qed.
Lemma tern_bsel R a b m : wok 1 R = true -> reg R a -> reg R b -> reg R m -> mm_ternarylogic R a b m 0xe4 = bsel a b m.
Proof. intros. apply v3_1_bsel; auto. intros x y z [-> | ->] [-> | ->] [-> | ->]; reflexivity. Qed.

(** the bytes of an all-ones/zero mask *)
Lemma lane8_tf k b i : 0 < k -> 0 <= i < k -> lane 8 i (tf (8 * k) b) = tf 8 b.
Proof.
  intros Hk Hi. apply (bits_ext 8); try lia; [apply lane_range; lia|apply tf_range; lia|].
  intros j Hj. rewrite testbit_lane by lia. destruct (Z.ltb_spec j 8); [|lia]. cbn [andb].
  destruct b; unfold tf; [|rewrite !Z.bits_0; reflexivity]. rewrite !testbit_ones by nia.
  destruct (Z.ltb_spec (8 * i + j) (8 * k)), (Z.ltb_spec j 8); nia || reflexivity.
Qed.
Lemma lane8_tfv w s p i : 0 <= i < rbits s / 8 ->
  exists b, lane 8 i (tfv (wb w) (rbits s) p) = tf 8 b.
Proof.
  intros Hi. set (k := wb w / 8). assert (Ek : wb w = 8 * k) by (destruct w; reflexivity).
  assert (Hk : 0 < k) by (destruct w; reflexivity).
  unfold tfv. rewrite Ek. rewrite (lane_pack_sub 8 k) by (auto; try lia; rewrite <- Ek; apply wok_lib).
  eexists. apply lane8_tf; auto. apply Z.mod_pos_bound. auto.
Qed.
Lemma blendv_bsel w s a b p : reg (rbits s) a -> reg (rbits s) b ->
  mm_blendv_epi8 (rbits s) b a (tfv (wb w) (rbits s) p) = bsel a b (tfv (wb w) (rbits s) p).
Proof.
  intros Ha Hb. symmetry. apply eq_v3; [apply (wok_lib W8 s)| |].
  { apply bsel_reg; auto. }
  intros i Hi. rewrite lane_bsel by lia. destruct (lane8_tfv w s p i Hi) as (c & ->).
  rewrite bsel_tf by (lia || (apply lane_range; lia)). destruct c; unfold tf, ones; cbn [Z.leb]; symmetry; apply wrap_lane.
Qed.

Ltac rw_in' HB :=
  repeat match goal with
  | E : ?f ?A = true |- _ => lazymatch type of A with arch => rewrite E in HB end
  | E : ?f ?A = false |- _ => lazymatch type of A with arch => rewrite E in HB end
  end; cbn [andb orb negb] in HB.
Section Blend.
  Variables (A : arch) (w : ew) (s : rsz).
  Hypotheses (HV : valid_arch A = true) (HA : avail_int A (wb w) s = true).

  Lemma sel_and_or_ok w' s' a b m : avail_int A (wb w') s' = true -> reg (rbits s') a -> reg (rbits s') b -> reg (rbits s') m ->
    sel_and_or A w' s' a b m = Ok (bsel a b m).
  Proof.
    intros HA' Ha Hb Hm. unfold sel_and_or. rewrite i_bit_and_ok, i_bit_andnot_ok by auto. cbn [bind].
    rewrite i_bit_or_ok; auto.
  Qed.
  Ltac bleaf :=
    idtac; lazymatch goal with
    | |- null_bit_select _ _ _ _ _ = _ => apply null_bit_select_ok; auto
    | |- sel_and_or _ ?w ?s _ _ _ = _ => apply (sel_and_or_ok w s); auto
    | |- Ok (mm_ternarylogic _ _ _ _ _) = _ => f_equal; apply tern_bsel; auto
    | |- Ok (mm_cmov _ _ _ _) = _ => f_equal; apply cmov_bsel; auto
    | |- Ok (vbslq _ _ _) = _ => f_equal; unfold vbslq, bsel; f_equal; apply Z.land_comm
    | |- Ok (vec_sel _ _ _) = _ => f_equal; apply Z.lor_comm
    | |- Ok (msa_bsel _ _ _) = _ => f_equal; apply Z.lor_comm
    end.
  Theorem i_bit_select_ok a b m : reg (rbits s) a -> reg (rbits s) b -> reg (rbits s) m ->
    i_bit_select A w s a b m = Ok (bsel a b m).
  Proof.
    intros Ha Hb Hm. unfold i_bit_select, nat512. destruct s, w; cbn [rbits wb] in *; lad HV HA bleaf.
  Qed.
  Theorem i_blend_ok a b p : reg (rbits s) a -> reg (rbits s) b ->
    i_blend A w s a b (tfv (wb w) (rbits s) p) = Ok (bsel a b (tfv (wb w) (rbits s) p)).
  Proof.
    intros Ha Hb. assert (Hm : reg (rbits s) (tfv (wb w) (rbits s) p)) by auto.
    pose proof (blendv_bsel w s a b p Ha Hb) as HBL.
    set (m := tfv (wb w) (rbits s) p) in *. clearbody m.
    unfold i_blend, nat512. destruct s, w; cbn [rbits wb] in *; lad HV HA ltac:(first [rewrite HBL; reflexivity | bleaf]).
  Qed.

  Section Sel.
    Variable sel : Z -> Z -> Z -> res Z.
    Hypothesis Hsel : forall a b p, reg (rbits s) a -> reg (rbits s) b ->
      sel a b (tfv (wb w) (rbits s) p) = Ok (bsel a b (tfv (wb w) (rbits s) p)).
    Lemma null_blend_ok a b m p : s = R128 -> mrel A w s p m -> mk_int A w s = KNull ->
      null_blend_mask (ut w) 128 a b m = Ok (pack (wb w) 128 (fun i => if p i then lane (wb w) i a else lane (wb w) i b)).
    Proof.
      intros Es Hm EK. unfold mrel in Hm. rewrite EK in Hm. cbn [mask_rel] in Hm. rewrite Es in *. cbn [rbits] in *.
      unfold null_blend_mask. apply (nloop_pack (ut w)); [apply (wok_lib w R128)|].
      change (snd (ut w)) with (wb w). intros i Hi. rewrite Hm.
      rewrite (c_bool_mnull w R128) by auto. eexists; split; [reflexivity|].
      destruct (p i); cbn [snd el]; change (snd (ut w)) with (wb w); rewrite u_cconv by auto; reflexivity.
    Qed.
    Lemma mask_blend_ok a b m p : mrel A w s p m -> mk_int A w s = KBits ->
      mm_mask_blend (wb w) (rbits s) m b a = pack (wb w) (rbits s) (fun i => if p i then lane (wb w) i a else lane (wb w) i b).
    Proof.
      intros Hm EK. unfold mrel in Hm. rewrite EK in Hm. destruct Hm as [H0 Hb]. unfold mm_mask_blend.
      apply pack_ext; auto. intros i Hi. rewrite Hb by auto. reflexivity.
    Qed.
    Lemma sel_m_ok vl a b m p : reg (rbits s) a -> reg (rbits s) b -> mrel A w s p m ->
      sel_m A w s vl sel a b m = Ok (pack (wb w) (rbits s) (fun i => if p i then lane (wb w) i a else lane (wb w) i b)).
    Proof.
      intros Ha Hb Hm.
      assert (Hvia : (let* v := unmask A w s m in sel a b v) = Ok (pack (wb w) (rbits s) (fun i => if p i then lane (wb w) i a else lane (wb w) i b))).
      { rewrite (unmask_ok A w s m p) by auto. cbn [bind].
        change (pack (wb w) (rbits s) (fun i => tf (wb w) (p i))) with (tfv (wb w) (rbits s) p).
        rewrite Hsel by auto. f_equal. apply bsel_tfv; auto. }
      pose proof (null_blend_ok a b m p) as HN. pose proof (mask_blend_ok a b m p Hm) as HK. specialize (fun Hs => HN Hs Hm).
      unfold sel_m. rewrite Hvia. clear Hvia Hsel. unfold nat512, mk_int in *.
      destruct s, w; cbn [rbits wb] in *; fam HV; destruct vl; cbn [andb]; repeat split_if; rw_in' HN; rw_in' HK; clear Hm;
        first [reflexivity | apply HN; reflexivity | f_equal; apply HK; reflexivity | vimp HV | cbn in HA; fcontra].
    Qed.
    Lemma null_blend_mm_ok a b m p q r : s = R128 -> mrel A w s p a -> mrel A w s q b -> mrel A w s r m -> mk_int A w s = KNull ->
      Rok (mrel A w s (fun i => if r i then p i else q i)) (null_blend_mask_mm (128 / wb w) a b m).
    Proof.
      intros Es Ha Hb Hm EK. unfold mrel in *. rewrite EK in *. cbn [mask_rel] in Ha, Hb, Hm. rewrite Es in *. cbn [rbits] in *.
      unfold null_blend_mask_mm. rewrite (nloop_pack c_u8 (8 * (128 / wb w)) _ (fun i => Z.b2z (if r i then p i else q i))).
      - reflexivity.
      - apply (wok_mask w R128).
      - cbn [c_u8 snd]. change 128 with (rbits R128). rewrite (nmask w R128). intros i Hi. rewrite Ha, Hb, Hm. change 128 with (rbits R128).
        rewrite (c_bool_mnull w R128) by auto. eexists; split; [reflexivity|].
        assert (E : forall b, cconv (false, 8) (Z.b2z b) = Z.b2z b) by (intros [|]; reflexivity).
        destruct (r i); unfold el; cbn [snd c_u8]; rewrite (lane_mnull w R128) by auto; rewrite E;
          [destruct (p i)|destruct (q i)]; reflexivity.
    Qed.
    Lemma kor_sel n kor kand kandn a b m : kop_ok n kor orb -> kop_ok n kand andb ->
      kop_ok n (fun a b => kandn b a) (fun x y => x && negb y) -> 0 <= a -> 0 <= b -> 0 <= m ->
      0 <= kor (kand a m) (kandn m b) /\
      forall i, 0 <= i < n -> Z.testbit (kor (kand a m) (kandn m b)) i = if Z.testbit m i then Z.testbit a i else Z.testbit b i.
    Proof.
      intros Ho Ha Hn Pa Pb Pm. destruct (Ha a m Pa Pm) as [A1 A2]. destruct (Hn b m Pb Pm) as [N1 N2].
      destruct (Ho _ _ A1 N1) as [O1 O2]. split; auto. intros i Hi. rewrite O2, A2, N2 by auto.
      destruct (Z.testbit m i), (Z.testbit a i), (Z.testbit b i); reflexivity.
    Qed.
    Lemma ksel_ok kor kand kandn a b m p q r : mk_int A w s = KBits ->
      kop_ok (rbits s / wb w) kor orb -> kop_ok (rbits s / wb w) kand andb ->
      kop_ok (rbits s / wb w) (fun a b => kandn b a) (fun x y => x && negb y) ->
      mrel A w s p a -> mrel A w s q b -> mrel A w s r m ->
      mrel A w s (fun i => if r i then p i else q i) (kor (kand a m) (kandn m b)).
    Proof.
      intros EK Ho Hn Hd Ha Hb Hm. unfold mrel in *. rewrite EK in *. destruct Ha as [Ha0 Ha], Hb as [Hb0 Hb], Hm as [Hm0 Hm].
      destruct (kor_sel _ kor kand kandn a b m Ho Hn Hd Ha0 Hb0 Hm0) as [H1 H2]. split; auto.
      intros i Hi. rewrite H2, Ha, Hb, Hm by auto. reflexivity.
    Qed.
    Lemma sel_mm_ok a b m p q r : mrel A w s p a -> mrel A w s q b -> mrel A w s r m ->
      Rok (mrel A w s (fun i => if r i then p i else q i)) (sel_mm A w s sel a b m).
    Proof.
      intros Ha Hb Hm.
      assert (Hvia : (let* x := unmask A w s a in let* y := unmask A w s b in
             let* v := unmask A w s m in let* r := sel x y v in i_to_mask A w s r) =
             i_to_mask A w s (tfv (wb w) (rbits s) (fun i => if r i then p i else q i))).
      { rewrite (unmask_ok A w s m r), (unmask_ok A w s a p), (unmask_ok A w s b q) by auto. cbn [bind].
        change (pack (wb w) (rbits s) (fun i => tf (wb w) (r i))) with (tfv (wb w) (rbits s) r).
        change (pack (wb w) (rbits s) (fun i => tf (wb w) (p i))) with (tfv (wb w) (rbits s) p).
        change (pack (wb w) (rbits s) (fun i => tf (wb w) (q i))) with (tfv (wb w) (rbits s) q).
        rewrite Hsel by auto. cbn [bind]. f_equal. rewrite bsel_tfv by auto. apply pack_ext; auto.
        intros i Hi. rewrite !lane_tfv by auto. destruct (r i); reflexivity. }
      assert (HT : Rok (mrel A w s (fun i => if r i then p i else q i)) (i_to_mask A w s (tfv (wb w) (rbits s) (fun i => if r i then p i else q i)))) by apply i_to_mask_ok.
      pose proof (null_blend_mm_ok a b m p q r) as HN. specialize (fun Hs => HN Hs Ha Hb Hm).
      pose proof (fun EK => ksel_ok k_or k_and (k_andnot (kbits_of w s)) a b m p q r EK (kop_or _) (kop_and _)
        (kop_andnot _ _ (kbits_enough w s) ltac:(pose proof (kbits_enough w s); pose proof (rnb w s); lia)) Ha Hb Hm) as HK.
      pose proof (fun E16 EK => ksel_ok mm512_kor mm512_kand mm512_kandn a b m p q r EK (kop_or16 _ (kbits_le16 w s E16)) (kop_and16 _ (kbits_le16 w s E16))
        (kop_andn16 _ (kbits_le16 w s E16)) Ha Hb Hm) as HK16.
      unfold sel_mm. rewrite Hvia. clear Hvia Hsel. set (G := mrel A w s (fun i => if r i then p i else q i)) in *. clearbody G.
      set (T := i_to_mask A w s (tfv (wb w) (rbits s) (fun i => if r i then p i else q i))) in *. clearbody T.
      unfold nat512, mk_int in *. clear Ha Hb Hm.
      destruct s, w; cbn [rbits wb] in *; fam HV; repeat split_if; rw_in' HN; rw_in' HK;
        first [exact HT | apply HN; reflexivity | apply HK; reflexivity | apply HK16; auto; reflexivity | vimp HV | cbn in HA; fcontra].
    Qed.
  End Sel.
End Blend.

Theorem liftVVT w s (op : Z -> Z -> Z -> res Z) : wok w (rbits s) = true ->
  (forall a b p, reg (rbits s) a -> reg (rbits s) b ->
    op a b (tfv w (rbits s) p) = Ok (bsel a b (tfv w (rbits s) p))) ->
  computesVVT w s (vec_impl3 op).
Proof.
  intros HW Hop va. destruct (wok_spec _ _ HW) as (Hw & HR & ER & En).
  induction va as [|a va IH]; intros [|b vb] [|m vm] Ha Hb Hm Hl1 Hl2 HF; try discriminate.
  - exists []. repeat split; try constructor.
  - apply wfv_cons in Ha as [Hr Ha]. apply wfv_cons in Hb as [Hrb Hb]. apply wfv_cons in Hm as [Hrm Hm].
    rewrite lanes_cons in HF. apply Forall_app in HF as [HF1 HF2]. cbn in Hl1, Hl2.
    destruct (IH vb vm Ha Hb Hm ltac:(lia) ltac:(lia) HF2) as (vr & E & W & L & EL).
    assert (Em : m = tfv w (rbits s) (fun i => negb (lane w i m =? 0))).
    { apply eq_tfv; auto. intros i Hi. rewrite Forall_forall in HF1.
      assert (In (lane w i m) (elems w (nl w (rbits s)) m)).
      { unfold elems. apply in_map_iff. exists (Z.to_nat i). split; [f_equal; lia|]. apply in_seq. lia. }
      destruct (HF1 _ H) as [-> | ->]; [reflexivity|].
      pose proof (ones_pos w Hw). unfold ones in H0. destruct (Z.eqb_spec (2 ^ w - 1) 0); [lia|]. reflexivity. }
    eexists. cbn [vec_impl3]. rewrite Em at 1. rewrite Hop, E by auto. cbn [bind]. split; [reflexivity|].
    rewrite bsel_tfv by auto.
    split; [apply wfv_cons; split; auto|]. split; [cbn; lia|].
    rewrite !lanes_cons, zipw3_app, EL by (rewrite !elems_length; reflexivity).
    f_equal. unfold elems. rewrite zipw3_map. apply map_ext_in. intros i Hi. apply in_seq in Hi.
    rewrite lane_pack by (auto; lia). destruct (lane w (Z.of_nat i) m =? 0); cbn [negb]; apply wrap_lane.
Qed.
