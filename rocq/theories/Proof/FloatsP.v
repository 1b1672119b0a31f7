From Verif Require Export Model.Floats Proof.BlendP Proof.CmpP.
From Coq Require Import Lia.

Definition frel A d s p m := mrelk (mk_flt A d s) (few d) s p m.

(** What holds at each rung of the float ladders. *)
Record at_nul A d := { n_mk : mk_flt A d R128 = KNull; n_128 : null128 A d = true; n_z : ftz A d = false;
  n_vl : use_avx512vl A = false; n_sse : use_sse2 A = false }.
Record at_x86 A d := { x_null : use_null A = false; x_128 : null128 A d = false; x_z : ftz A d = false;
  x_sse : use_sse2 A = true; x_mk : mk_flt A d R128 = if use_avx512vl A then KBits else KVec }.
Record at_hw A d := { h_null : use_null A = false; h_128 : null128 A d = false; h_vl : use_avx512vl A = false;
  h_mk : mk_flt A d R128 = KVec; h_sse : use_sse2 A = false; h_avx : use_avx A = false }.

Ltac fl_unf := unfold null128, ftz, use_neon32, use_neon64, use_neon_no_flt_sp in *.
Ltac fl_fin HV := cbn [mk_flt few] in *; fl_unf; rw_flags; cbn [andb orb negb]; try reflexivity; try fcontra; try (vimp HV).
Lemma fl_cases {X} A d (P : res X -> Prop) nul x86 neon ppc msa : valid_arch A = true ->
  (at_nul A d -> P nul) -> (at_x86 A d -> P x86) -> (at_hw A d -> P neon) -> (at_hw A d -> P ppc) ->
  (at_hw A d -> ftz A d = false -> P msa) -> P (fl_ladder A d nul x86 neon ppc msa).
Proof.
  intros HV Hn Hx Hne Hp Hm. unfold fl_ladder, mk_flt.
  destruct d; fl_unf; fam HV; repeat split_if; try (vimp HV);
  first
  [ apply Hn; clear Hn Hx Hne Hp Hm; constructor; solve [fl_fin HV | unfold mk_flt; repeat split_if; fl_fin HV]
  | apply Hx; clear Hn Hx Hne Hp Hm; constructor; solve [fl_fin HV | unfold mk_flt; repeat split_if; fl_fin HV]
  | apply Hne; clear Hn Hx Hne Hp Hm; constructor; solve [fl_fin HV | unfold mk_flt; repeat split_if; fl_fin HV]
  | apply Hp; clear Hn Hx Hne Hp Hm; constructor; solve [fl_fin HV | unfold mk_flt; repeat split_if; fl_fin HV]
  | apply Hm; clear Hn Hx Hne Hp Hm; [constructor; solve [fl_fin HV | unfold mk_flt; repeat split_if; fl_fin HV]|solve [fl_fin HV]] ].
Qed.
Lemma fl_sizes_P {X} A s (P : res X -> Prop) x128 x256 x512 : avail_flt A s = true ->
  (s = R128 -> P x128) -> (s = R256 -> use_avx A = true -> P x256) -> (s = R512 -> use_avx512f A = true -> P x512) ->
  P (fl_sizes A s x128 x256 x512).
Proof. intros HA H1 H2 H3. destruct s; cbn [fl_sizes avail_flt] in *; auto; rewrite HA; auto. Qed.
Lemma avx_sse A : valid_arch A = true -> use_avx A = true -> use_sse2 A = true.
Proof. intros HV H. destruct (use_sse2 A) eqn:E; auto. vimp HV. Qed.
Lemma avx512_avx A : valid_arch A = true -> use_avx512f A = true -> use_avx A = true.
Proof. intros HV H. destruct (use_avx A) eqn:E; auto. vimp HV. Qed.
Lemma fwb d : wb (few d) = fw d. Proof. reflexivity. Qed.
Lemma fw_pos d : 0 < fw d. Proof. destruct d; reflexivity. Qed.
Lemma fwok d s : wok (fw d) (rbits s) = true. Proof. destruct d, s; reflexivity. Qed.
#[global] Hint Resolve fw_pos fwok : core.
Lemma flane d i a : 0 <= lane (fw d) i a < 2 ^ fw d.
Proof. apply lane_range. pose proof (fw_pos d); lia. Qed.
#[global] Hint Resolve flane : core.
Lemma fnl d s : 0 < rbits s / fw d <= 16.
Proof. destruct d, s; vm_compute; intuition discriminate. Qed.

Section F.
  Variables (A : arch) (d : bool) (s : rsz).
  Hypotheses (HV : valid_arch A = true) (HA : avail_flt A s = true).
  Notation w := (fw d).
  Notation R := (rbits s).

  Lemma fbit_ok nul sse neon ppc msa f :
    (forall a b, reg R a -> reg R b -> s = R128 -> nul (ut (few d)) 128 a b = Ok (f a b)) ->
    (forall a b, reg R a -> reg R b -> sse a b = f a b) ->
    (forall a b, reg R a -> reg R b -> s = R128 -> neon a b = f a b /\ ppc a b = f a b /\ msa a b = f a b) ->
    forall a b, reg R a -> reg R b -> fbit nul sse neon ppc msa A d s a b = Ok (f a b).
  Proof.
    intros Hn Hs Hh a b Ha Hb. unfold fbit.
    apply (fl_sizes_P A s (fun r => r = Ok (f a b))); auto; intros Es.
    - destruct (Hh a b Ha Hb Es) as (E1 & E2 & E3). apply (fl_cases A d (fun r => r = Ok (f a b))); auto; intros; f_equal; auto.
    - intros. f_equal. auto.
    - intros. f_equal. auto.
  Qed.
  Theorem f_bit_and_ok a b : reg R a -> reg R b -> f_bit_and A d s a b = Ok (Z.land a b).
  Proof.
    apply fbit_ok; intros; try reflexivity; [|repeat split; reflexivity].
    subst s. apply null_bit_and_ok; auto. apply (fwok d R128).
  Qed.
  Theorem f_bit_or_ok a b : reg R a -> reg R b -> f_bit_or A d s a b = Ok (Z.lor a b).
  Proof.
    apply fbit_ok; intros; try reflexivity; [|repeat split; reflexivity].
    subst s. apply null_bit_or_ok; auto. apply (fwok d R128).
  Qed.
  Theorem f_bit_xor_ok a b : reg R a -> reg R b -> f_bit_xor A d s a b = Ok (Z.lxor a b).
  Proof.
    apply fbit_ok; intros; try reflexivity; [|repeat split; reflexivity].
    subst s. apply null_bit_xor_ok; auto. apply (fwok d R128).
  Qed.
  Theorem f_bit_andnot_ok a b : reg R a -> reg R b -> f_bit_andnot A d s a b = Ok (Z.ldiff a b).
  Proof.
    apply fbit_ok; intros; try reflexivity.
    - subst s. apply null_bit_andnot_ok; auto. apply (fwok d R128).
    - subst s. split; [reflexivity|]. split; [reflexivity|]. unfold msa_and, msa_nor.
      rewrite nor_self by auto. apply land_rnot; auto.
  Qed.
  Theorem f_bit_not_ok a : reg R a -> f_bit_not A d s a = Ok (rnot R a).
  Proof.
    intros Ha. unfold f_bit_not.
    assert (HX : f_bit_xor A d s a (fconst d s (ones w)) = Ok (rnot R a)).
    { unfold fconst. rewrite splat_ones by auto. apply f_bit_xor_ok; auto. apply ones_reg. destruct s; cbn; lia. }
    rewrite HX. apply (fl_sizes_P A s (fun r => r = Ok (rnot R a))); auto; intros Es; rewrite Es in *; cbn [rbits] in *.
    - destruct (use_sse2 A); auto. unfold vmvnq, vec_nor.
      destruct (if d then use_neon64 A else use_neon_flt_sp A); [f_equal; apply lnot_v1; auto|].
      destruct (if d then use_vsx206 A else use_altivec A); [f_equal; apply nor_self; auto|].
      apply (i_bit_not_ok A (few d) R128); auto.
    - intros _. f_equal. apply ternlog_not; auto.
  Qed.

  Lemma null128_vl : null128 A d = true -> use_avx512vl A = false.
  Proof. fl_unf. destruct d; fam HV; repeat split_if; intros; first [reflexivity|assumption|discriminate|fcontra|vimp HV]. Qed.
  Lemma mk_flt_eq : mk_flt A d s = match s with
    | R512 => KBits
    | R256 => if use_avx512vl A then KBits else KVec
    | R128 => if use_avx512vl A then KBits else if null128 A d then KNull else KVec end.
  Proof.
    unfold mk_flt; fl_unf. destruct s, d; auto; fam HV; repeat split_if; auto; try fcontra; try (vimp HV);
    rewrite ?orb_true_r, ?andb_true_r, ?andb_false_r in *; try discriminate; try fcontra; try (vimp HV).
  Qed.
  Lemma knull_f : mk_flt A d s = KNull -> s = R128 /\ null128 A d = true.
  Proof.
    rewrite mk_flt_eq. destruct s; [|destruct (use_avx512vl A); discriminate|discriminate].
    destruct (use_avx512vl A); [discriminate|]. destruct (null128 A d); [auto|discriminate].
  Qed.
  Lemma ftz_x86 : use_sse2 A = true -> ftz A d = false.
  Proof. intros. fl_unf. fam HV; try fcontra; destruct d; reflexivity. Qed.
  Lemma ftz_wide : s <> R128 -> ftz A d = false.
  Proof.
    intros Hs. apply ftz_x86. apply avx_sse; auto. destruct s; [contradiction|exact HA|apply avx512_avx; auto].
  Qed.

  Theorem unmask_f_ok m p : frel A d s p m -> unmask_f A d s m = Ok (tfv w R p).
  Proof.
    intros HM. unfold unmask_f, frel, mrelk in *. rewrite fwb in HM.
    destruct (mk_flt A d s) eqn:EK.
    - cbn [mask_rel] in HM. subst m. unfold null_unmask, tfv. apply (nloop_pack (ut (few d))); [exact (fwok d s)|].
      change (snd (ut (few d))) with w. intros i Hi. rewrite (c_bool_mnull (few d)) by auto.
      eexists; split; [reflexivity|]. destruct (p i); reflexivity.
    - cbn in HM. subst m. reflexivity.
    - destruct HM as [Hm Hb].
      assert (mm_movm w R m = tfv w R p) as E.
      { apply pack_ext; auto. intros i Hi. rewrite Hb by auto. reflexivity. }
      assert (mm_maskz_set1 w R m (ones w) = tfv w R p) as E'.
      { apply pack_ext; auto. intros i Hi. rewrite Hb by auto. reflexivity. }
      destruct s; cbn [rbits] in *; rewrite ?E, ?E'; reflexivity.
  Qed.
  Lemma null_fcmp_ok pr a b p : s = R128 -> mk_flt A d s = KNull ->
    (forall i, 0 <= i < R / w -> pr (lane w i a) (lane w i b) = p i) ->
    Rok (frel A d s p) (null_fcmp w pr a b).
  Proof.
    intros Es EK Hp. unfold frel, mrelk. rewrite EK, fwb. rewrite Es in *. cbn [null_fcmp Rok mask_rel rbits] in *.
    unfold pack, nl. apply mk_ext. intros i Hi. rewrite Hp; auto.
    assert (8 * (128 / w) / 8 = 128 / w) as E8 by (destruct d; reflexivity). rewrite E8 in Hi.
    assert (0 < 128 / w) by (destruct d; reflexivity). lia.
  Qed.
  Lemma neq_tf b : f_neq w (tf w b) 0 = b.
  Proof. destruct d, b; vm_compute; reflexivity. Qed.
  Theorem f_to_mask_ok p : Rok (frel A d s p) (f_to_mask A d s (tfv w R p)).
  Proof.
    unfold f_to_mask. pose proof null_fcmp_ok as HN. unfold frel, mrelk in *. rewrite fwb in *.
    destruct (mk_flt A d s) eqn:EK.
    - destruct (knull_f EK) as [Es _]. apply HN; auto. intros i Hi. rewrite lane_tfv, lane_of_zero by auto. apply neq_tf.
    - reflexivity.
    - apply kbits_test; auto.
  Qed.
  Lemma frel_ext m p q : (forall i, 0 <= i < R / w -> p i = q i) -> frel A d s p m -> frel A d s q m.
  Proof. intros H. apply mask_rel_ext; auto. Qed.
  Lemma Rfrel_ext r p q : (forall i, 0 <= i < R / w -> p i = q i) -> Rok (frel A d s p) r -> Rok (frel A d s q) r.
  Proof. intros H. destruct r; cbn; auto. apply frel_ext; auto. Qed.

  Theorem f_bit_not_m_ok m p : frel A d s p m -> Rok (frel A d s (fun i => negb (p i))) (f_bit_not_m A d s m).
  Proof.
    intros Hm. unfold f_bit_not_m. rewrite (unmask_f_ok m p) by auto. cbn [bind]. rewrite f_bit_not_ok by auto.
    cbn [bind]. rewrite (rnot_tfv (few d) s p : rnot R (tfv w R p) = tfv w R (fun i => negb (p i))).
    pose proof (f_to_mask_ok (fun i => negb (p i))) as HT.
    apply (fl_sizes_P A s (Rok (frel A d s (fun i => negb (p i))))); auto.
    - intros Es. change (use_null A || _) with (null128 A d). destruct (null128 A d) eqn:EN; [|exact HT].
      unfold frel, mrelk in *. rewrite mk_flt_eq in *. rewrite Es in *. rewrite null128_vl, EN in * by auto.
      eapply Rok_ok; [apply (null_mm1_ok R128 (few d) (fun x => c_xor x (c_lit 1)) m p negb)|reflexivity]; [|exact Hm].
      intros [|]; reflexivity.
    - intros Es _. unfold frel, mrelk in *. rewrite mk_flt_eq in *. rewrite Es in *. destruct Hm as [H0 Hb].
      cbn [Rok mask_rel]. unfold mm512_knot. split; [apply wrap_range; lia|]. intros i Hi.
      assert (rbits R512 / wb (few d) <= 16) by (destruct d; vm_compute; discriminate).
      rewrite testbit_wrap, Z.lnot_spec, Hb by lia. destruct (Z.ltb_spec i 16); [reflexivity|lia].
  Qed.

  Lemma f_mm_ok nul kvl k512 vop g a b p q :
    (s <> R512 -> kop_ok (R / w) kvl g) -> kop_ok (R / w) k512 g ->
    (s = R128 -> a = pack 8 (8 * (128 / w)) (fun i => Z.b2z (p i)) -> b = pack 8 (8 * (128 / w)) (fun i => Z.b2z (q i)) ->
       nul (128 / w) a b = Ok (pack 8 (8 * (128 / w)) (fun i => Z.b2z (g (p i) (q i))))) ->
    vop (tfv w R p) (tfv w R q) = Ok (tfv w R (fun i => g (p i) (q i))) ->
    frel A d s p a -> frel A d s q b ->
    Rok (frel A d s (fun i => g (p i) (q i))) (f_mm A d s nul kvl k512 vop a b).
  Proof.
    intros Hk H5 Hn Hv Ha Hb. unfold f_mm. rewrite (unmask_f_ok a p), (unmask_f_ok b q) by auto. cbn [bind]. rewrite Hv. cbn [bind].
    pose proof (f_to_mask_ok (fun i => g (p i) (q i))) as HT.
    assert (HK : forall kop, kop_ok (R / w) kop g -> mk_flt A d s = KBits -> frel A d s (fun i => g (p i) (q i)) (kop a b)).
    { intros kop Hop EK. unfold frel, mrelk in *. rewrite EK in *. destruct Ha as [Ha0 Ha], Hb as [Hb0 Hb].
      destruct (Hop a b Ha0 Hb0) as [H1 H2]. split; auto. intros i Hi. rewrite H2, Ha, Hb by auto. reflexivity. }
    apply (fl_sizes_P A s (Rok (frel A d s (fun i => g (p i) (q i))))); auto; intros Es.
    - destruct (null128 A d) eqn:EN.
      + unfold frel, mrelk in *. rewrite mk_flt_eq in *. rewrite Es in *. rewrite null128_vl, EN in * by auto.
        eapply Rok_ok; [apply Hn; auto|reflexivity].
      + destruct (use_avx512vl A) eqn:EV; [|exact HT]. apply HK; [apply Hk; rewrite Es; discriminate|].
        rewrite mk_flt_eq, Es, EV. reflexivity.
    - intros _. destruct (use_avx512vl A) eqn:EV; [|exact HT]. apply HK; [apply Hk; rewrite Es; discriminate|].
      rewrite mk_flt_eq, Es, EV. reflexivity.
    - intros _. apply HK; auto. rewrite mk_flt_eq, Es. reflexivity.
  Qed.
  Let n16 : R / w <= 16 := proj2 (fnl d s).
  Lemma n8 : s <> R512 -> R / w <= 8.
  Proof. intros. destruct s, d; try contradiction; vm_compute; discriminate. Qed.
  Theorem f_bit_and_mm_ok a b p q : frel A d s p a -> frel A d s q b ->
    Rok (frel A d s (fun i => p i && q i)) (f_bit_and_mm A d s a b).
  Proof.
    intros Ha Hb. apply (f_mm_ok _ _ _ _ andb); auto; try (intros; apply kop_and16; exact n16).
    - intros Es Ea Eb. apply (null_mm_ok R128 (few d) c_and a b p q); auto. intros [|] [|]; reflexivity.
    - rewrite f_bit_and_ok by auto. f_equal. apply (tfv_op2 (few d) s Z.land); auto.
      + intros; apply lane_land; auto.
      + intros [|] [|]; unfold tf; rewrite ?Z.land_diag, ?Z.land_0_r, ?Z.land_0_l; reflexivity.
  Qed.
  Theorem f_bit_or_mm_ok a b p q : frel A d s p a -> frel A d s q b ->
    Rok (frel A d s (fun i => p i || q i)) (f_bit_or_mm A d s a b).
  Proof.
    intros Ha Hb. apply (f_mm_ok _ _ _ _ orb); auto; try (apply kop_or16; exact n16); try (intros; apply kop_or).
    - intros Es Ea Eb. apply (null_mm_ok R128 (few d) c_or a b p q); auto. intros [|] [|]; reflexivity.
    - rewrite f_bit_or_ok by auto. f_equal. apply (tfv_op2 (few d) s Z.lor); auto.
      + intros; apply lane_lor; auto.
      + intros [|] [|]; unfold tf; rewrite ?Z.lor_diag, ?Z.lor_0_r, ?Z.lor_0_l; reflexivity.
  Qed.
  Theorem f_bit_xor_mm_ok a b p q : frel A d s p a -> frel A d s q b ->
    Rok (frel A d s (fun i => xorb (p i) (q i))) (f_bit_xor_mm A d s a b).
  Proof.
    intros Ha Hb. apply (f_mm_ok _ _ _ _ xorb); auto; try (apply kop_xor16; exact n16); try (intros; apply kop_xor).
    - intros Es Ea Eb. apply (null_mm_ok R128 (few d) c_xor a b p q); auto. intros [|] [|]; reflexivity.
    - rewrite f_bit_xor_ok by auto. f_equal. apply (tfv_op2 (few d) s Z.lxor); auto.
      + intros; apply lane_lxor; auto.
      + intros [|] [|]; unfold tf; rewrite ?Z.lxor_nilpotent, ?Z.lxor_0_r, ?Z.lxor_0_l; reflexivity.
  Qed.
  Theorem f_bit_andnot_mm_ok a b p q : frel A d s p a -> frel A d s q b ->
    Rok (frel A d s (fun i => p i && negb (q i))) (f_bit_andnot_mm A d s a b).
  Proof.
    intros Ha Hb. apply (f_mm_ok _ _ _ _ (fun x y => x && negb y)); auto; try (apply kop_andn16; exact n16).
    - intros Hs. apply kop_andnot; [apply n8; auto|lia].
    - intros Es Ea Eb. apply (null_mm_ok R128 (few d) (fun x y => let* z := c_xor y (c_lit 1) in c_and x z) a b p q (fun x y => x && negb y)); auto.
      intros [|] [|]; reflexivity.
    - rewrite f_bit_andnot_ok by auto. f_equal. apply (tfv_op2 (few d) s Z.ldiff (fun x y => x && negb y)); auto.
      + intros; apply lane_ldiff; auto.
      + intros [|] [|]; unfold tf; rewrite ?Z.ldiff_diag, ?Z.ldiff_0_r, ?Z.ldiff_0_l; reflexivity.
  Qed.
End F.
