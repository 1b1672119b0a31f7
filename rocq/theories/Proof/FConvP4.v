(** The public conversions between float32 and 32-bit integers *)
From Verif Require Import Proof.FloatsP3 Proof.FloatRoundP Proof.FArithP Proof.CastP Proof.FConvP Proof.CmpP.
From Verif Require Export Proof.FConvP3.
From Coq Require Import Lia.

Lemma low_v1 (s s' : rsz) f a : rbits s <= rbits s' -> lane (rbits s) 0 (v1 32 (rbits s') f a) = v1 32 (rbits s) f a.
Proof.
  intros H. apply eq_v1; [apply w32|apply lane_range; destruct s; discriminate|]. intros i Hi.
  assert (E : rbits s = 32 * (rbits s / 32)) by (destruct s; reflexivity).
  rewrite E at 1. rewrite lane_lane; [|lia|destruct s; reflexivity|lia|exact Hi]. rewrite Z.mul_0_l, Z.add_0_l.
  apply lane_v1; [apply w32|]. split; [lia|].
  assert (rbits s / 32 <= rbits s' / 32) by (apply Z.div_le_mono; lia). lia.
Qed.

Section I.
  Variable A : arch.
  Hypothesis HV : valid_arch A = true.
  Lemma cvtt_u x : fits_u32 x = true -> mm_cvtt_u x = f_int 32 x. Proof. unfold mm_cvtt_u. intros ->. reflexivity. Qed.
  Lemma sat_u_fits x : fits_u32 x = true -> sat_u x = f_int 32 x.
  Proof.
    intros H. apply fits_spec in H as [HF HI]. destruct (finite_mag false x HF) as (_ & HN & _). change (fw false) with 32 in *.
    unfold sat_u, sat_cvt. rewrite HN, Z.min_r, Z.max_r by lia. apply wrap_small. lia.
  Qed.
  Lemma sat_s_fits x : fits_s32 x = true -> sat_s x = wrap 32 (f_int 32 x).
  Proof.
    intros H. apply fits_spec in H as [HF HI]. destruct (finite_mag false x HF) as (_ & HN & _). change (fw false) with 32 in *.
    unfold sat_s, sat_cvt. rewrite HN, Z.min_r, Z.max_r by lia. reflexivity.
  Qed.
  Lemma to_uint32_biased_ok s a : avail_flt A s = true -> use_sse2 A = true -> reg (rbits s) a -> lane_dom 32 (rbits s) fits_u32 a ->
    to_uint32_biased A s a = Ok (as_regs A s (v1 32 (rbits s) (f_int 32) a)).
  Proof.
    intros HA HX Ha Hd. destruct (biased_sub A s HV HA HX a Ha) as (m & t & E1 & E2 & E3).
    unfold to_uint32_biased. rewrite E1. cbn [bind]. rewrite E2. cbn [bind]. rewrite E3. cbn [bind].
    rewrite (i_to_int32_f_ok A HV (fun _ => true) mm_cvtt_s); [|fam HV; rw_flags; cbn [orb]; unfold use_neon_no_flt_sp; rw_flags; cbn [andb]; intros; fcontra|auto|rewrite HX, orb_true_r; discriminate|auto|intros i Hi; reflexivity].
    apply f_equal, f_equal. apply eq_v1; [apply w32|apply v1_reg, w32|]. intros i Hi. rewrite !lane_v1 by auto using w32. f_equal.
    pose proof (lane_range 32 i a ltac:(lia)) as HL. rewrite wrap_small; [apply unbias_ok; auto|].
    unfold unbias. apply (f_sub_ran false); auto. destruct (f_le 32 _ _); split; reflexivity || discriminate.
  Qed.
  Lemma i_to_uint32_f_ok s a : avail_flt A s = true -> reg (rbits s) a -> lane_dom 32 (rbits s) fits_u32 a ->
    i_to_uint32_f A s a = Ok (as_regs A s (v1 32 (rbits s) (f_int 32) a)).
  Proof.
    intros HA Ha Hd. pose proof (fun E => to_uint32_biased_ok s a HA E Ha Hd) as HB.
    assert (HX : forall R', rbits R' >= rbits s -> lane (rbits s) 0 (v1 32 (rbits R') mm_cvtt_u a) = v1 32 (rbits s) (f_int 32) a).
    { intros R' HR. rewrite low_v1 by lia. apply (v1_dom _ _ fits_u32); auto using w32, cvtt_u. }
    assert (HX' : v1 32 (rbits s) mm_cvtt_u a = v1 32 (rbits s) (f_int 32) a) by (apply (v1_dom _ _ fits_u32); auto using w32, cvtt_u).
    assert (HS : v1 32 (rbits s) sat_u a = v1 32 (rbits s) (f_int 32) a) by (apply (v1_dom _ _ fits_u32); auto using w32, sat_u_fits).
    assert (H2 : use_avx512f A = true \/ use_avx512vl A = true -> use_avx2 A = true) by (destruct (valid_imp A HV) as (I1 & _ & _ & I4 & _); intros [E|E]; auto).
    destruct s; cbn [i_to_uint32_f as_regs rbits avail_flt] in *.
    - specialize (HX R512 ltac:(cbn; lia)). cbn [rbits] in HX. rewrite HX, HX', HS.
      assert (HN : c_cvt fits_u32 a = Ok (v1 32 128 (f_int 32) a)).
      { unfold c_cvt. assert (forallb fits_u32 (elems 32 4 a) = true) as ->.
        { change 4%nat with (nl 32 128). apply elems_dom; [reflexivity|]. exact Hd. }
        apply f_equal. apply (v1_dom _ _ fits_u32); [reflexivity|exact Hd|]. intros x Hx. apply wrap_small. apply fits_spec in Hx as [_ Hx]. pw. lia. }
      rewrite HN. cbn [bind]. repeat split_if; try reflexivity. apply HB. fam HV; auto; fcontra.
    - specialize (HX R512 ltac:(cbn; lia)). cbn [rbits] in HX. rewrite HX, HX', HA. unfold int_regs in *.
      destruct (use_avx512vl A) eqn:E1; [rewrite H2 by auto; reflexivity|]. destruct (use_avx512f A) eqn:E2; [rewrite H2 by auto; reflexivity|].
      apply HB, avx_sse; auto.
    - rewrite HA, HX'. reflexivity.
  Qed.
End I.

(** from registers to vectors *)
Section V.
  Variables (A : arch) (T : Z).
  Hypotheses (HV : valid_arch A = true) (HT : vsize T).
  Notation s := (vregf A T).
  Lemma conv_to_int f dom F P :
    (forall a, reg (rbits s) a -> lane_dom 32 (rbits s) dom a -> f a = Ok (as_regs A s (v1 32 (rbits s) F a))) ->
    (forall x, 0 <= x < 2 ^ 32 -> dom x = true -> 0 <= F x < 2 ^ 32 /\ P x (F x)) ->
    conv_rel 32 32 T T s (vreg A 32 T) (conv_each f) dom P.
  Proof.
    intros Hf HP. apply lift_each; [apply w32|]. intros a Ha Hd. exists (as_regs A s (v1 32 (rbits s) F a)). split; [apply Hf; auto|].
    destruct (as_regs_ok A T (v1 32 (rbits s) F a) HV HT) as (W & L & E); [apply v1_reg, w32|]. split; auto. split; auto. rewrite E.
    apply lane_rel_F2; [apply w32|]. intros i Hi. rewrite lane_v1 by auto using w32.
    destruct (HP (lane 32 i a)) as [H1 H2]; [apply lane_range; lia|apply Hd; auto|]. rewrite wrap_small by auto. exact H2.
  Qed.
  (** float registers made from integer registers *)
  Lemma conv_to_float f dom F P : 
    (avail_int A 32 s = true -> forall a, reg (rbits s) a -> f [a] = Ok (v1 32 (rbits s) F a)) ->
    (s = R256 -> use_avx A = true -> use_avx2 A = false -> forall a b, reg 128 a -> reg 128 b ->
       f [a; b] = Ok (v1 32 256 F (i_combine1 R128 a b)) \/ f [a; b] = Ok (i_combine1 R128 (v1 32 128 F a) (v1 32 128 F b))) ->
    (forall x, 0 <= x < 2 ^ 32 -> dom x = true -> 0 <= F x < 2 ^ 32 /\ P x (F x)) ->
    conv_rel 32 32 T T (vreg A 32 T) s (to_float32_by A s f) dom P.
  Proof.
    intros H1 H2 HP. destruct (fi_regs A T HV HT) as [HA [[E1 HI]|(E1 & E2 & E3 & E4 & E5 & ED)]].
    - rewrite <- E1.
      assert (E : forall va, to_float32_by A s f va = vec_impl1 (fun a => f [a]) va).
      { intros va. unfold to_float32_by. destruct s; try reflexivity. cbn [avail_int] in HI. rewrite HI. reflexivity. }
      intros va Wa La Hd. rewrite E. revert va Wa La Hd. apply lift_conv1; [apply w32|].
      intros a Ha Hd. exists (v1 32 (rbits s) F a). split; [apply H1; auto|]. split; [apply v1_reg, w32|].
      intros i Hi. rewrite lane_v1 by auto using w32.
      destruct (HP (lane 32 i a)) as [G1 G2]; [apply lane_range; lia|apply Hd; auto|]. rewrite wrap_small by auto. exact G2.
    - rewrite E2. rewrite E1 in *. unfold to_float32_by. rewrite E3. apply lift_pairs; [reflexivity|reflexivity| |exact ED].
      intros a b Ha Hb Da Db. cbn [rbits] in *.
      assert (G : forall a, lane_dom 32 128 dom a -> Forall2 P (elems 32 (nl 32 128) a) (map F (elems 32 (nl 32 128) a)) /\ (forall x, In x (elems 32 (nl 32 128) a) -> 0 <= F x < 2 ^ 32)).
      { intros c Dc. pose proof (elems_dom 32 128 dom c eq_refl Dc) as HF. rewrite forallb_forall in HF.
        assert (HR : forall x, In x (elems 32 (nl 32 128) c) -> 0 <= x < 2 ^ 32) by (intros x Hx; unfold elems in Hx; apply in_map_iff in Hx as (i & <- & _); apply lane_range; lia).
        revert HF HR. generalize (elems 32 (nl 32 128) c). induction l as [|x l IH]; intros HF HR; [split; [constructor|contradiction]|].
        destruct (HP x) as [G1 G2]; [apply HR; left; auto|apply HF; left; auto|].
        destruct IH as [I1 I2]; [intros y Hy; apply HF; right; auto|intros y Hy; apply HR; right; auto|].
        split; [constructor; auto|]. intros y [<-|Hy]; auto. }
      destruct (join_lanes 32 R128 R256 a b) as [Rj Ej]; [unfold lw; tauto|left; auto|auto|auto|]. cbn [rbits] in Rj, Ej.
      destruct (G a Da) as [Fa Ra], (G b Db) as [Fb Rb].
      assert (EV : forall R c, wok 32 R = true -> (forall x, In x (elems 32 (nl 32 R) c) -> 0 <= F x < 2 ^ 32) -> elems 32 (nl 32 R) (v1 32 R F c) = map F (elems 32 (nl 32 R) c)).
      { intros R c HwR HR. unfold elems in *. rewrite map_map. apply map_ext_in. intros i Hi. pose proof (nl_div 32 R HwR). apply in_seq in Hi.
        rewrite lane_v1 by (auto; lia). apply wrap_small, HR. apply in_map_iff. exists i. split; auto. apply in_seq. lia. }
      destruct (H2 eq_refl E4 E3 a b Ha Hb) as [E|E]; eexists; (split; [exact E|]).
      + split; [apply v1_reg; reflexivity|]. rewrite EV; [|reflexivity|rewrite Ej; intros x Hx; apply in_app_or in Hx; destruct Hx; auto].
        rewrite Ej, map_app. apply Forall2_app; auto.
      + destruct (join_lanes 32 R128 R256 (v1 32 128 F a) (v1 32 128 F b)) as [Rk Ek]; [unfold lw; tauto|left; auto|apply v1_reg; reflexivity|apply v1_reg; reflexivity|].
        cbn [rbits] in Rk, Ek. split; auto. rewrite Ek, !EV by (auto; reflexivity). apply Forall2_app; auto.
  Qed.
End V.

Section F.
  Variable A : arch.
  Hypothesis HV : valid_arch A = true.
  Notation cv := (fun x => f_of_int 32 (sgn 32 x)).
  Lemma i_to_float32_i_1 s a : avail_flt A s = true -> avail_int A 32 s = true -> i_to_float32_i A s [a] = Ok (v1 32 (rbits s) cv a).
  Proof.
    intros HA HI. destruct s; cbn [i_to_float32_i avail_int avail_flt rbits] in *.
    - repeat split_if; try reflexivity. fam HV; fcontra.
    - rewrite HI. reflexivity.
    - rewrite HA. reflexivity.
  Qed.
  (** unsigned: which registers are converted by biasing *)
  Definition by_bias (s : rsz) : bool :=
    use_sse2 A && match s with R128 => true | R256 => negb (use_avx512f A) | R512 => false end.
  Definition to_f_u (s : rsz) (x : Z) : Z := if by_bias s then bias x else f_of_int 32 x.
  Lemma i_to_float32_u_1 s a : avail_flt A s = true -> avail_int A 32 s = true -> reg (rbits s) a ->
    i_to_float32_u A s [a] = Ok (v1 32 (rbits s) (to_f_u s) a).
  Proof.
    intros HA HI Ha. pose proof (fun E => biased_add A s HV HA E a HI Ha) as HB. destruct s; cbn [i_to_float32_u avail_int avail_flt rbits by_bias] in *.
    - unfold to_f_u, by_bias. destruct (use_sse2 A) eqn:EX.
      + rewrite HB by auto. cbn [andb]. assert (use_null A = false) as -> by (fam HV; auto; fcontra). reflexivity.
      + cbn [andb]. repeat split_if; try reflexivity. fam HV; fcontra.
    - assert (use_sse2 A = true) as EX by (apply avx_sse; auto). rewrite HB by auto. unfold to_f_u, by_bias. rewrite EX. cbn [andb].
      destruct (use_avx512f A); cbn [negb].
      + rewrite (low_v1 R256 R512) by (cbn; lia). reflexivity.
      + rewrite HI. reflexivity.
    - rewrite HA. unfold to_f_u, by_bias. rewrite andb_false_r. reflexivity.
  Qed.
  Lemma i_to_float32_u_2 a b : use_avx A = true -> use_avx2 A = false -> reg 128 a -> reg 128 b ->
    i_to_float32_u A R256 [a; b] = Ok (i_combine1 R128 (v1 32 128 (to_f_u R256) a) (v1 32 128 (to_f_u R256) b)).
  Proof.
    intros E1 E2 Ha Hb. assert (EX : use_sse2 A = true) by (apply avx_sse; auto). cbn [i_to_float32_u]. rewrite E1, E2. cbn [andb negb].
    rewrite !(biased_add A R128 HV eq_refl EX) by (auto; reflexivity). cbn [bind].
    assert (use_avx512f A = false) as E3. { destruct (use_avx512f A) eqn:E; auto. destruct (valid_imp A HV) as (_ & _ & _ & I4 & _). rewrite I4 in E2; auto. }
    unfold to_f_u, by_bias. rewrite EX, E3. reflexivity.
  Qed.
  Lemma bias_ran x : 0 <= x < 2 ^ 32 -> 0 <= bias x < 2 ^ 32.
  Proof. intros Hx. unfold bias. apply (f_add_ran false); [apply (of_int_ran false)|]. destruct (sgn 32 x <? 0); split; reflexivity || discriminate. Qed.
  Lemma to_f_u_ran s x : 0 <= x < 2 ^ 32 -> 0 <= to_f_u s x < 2 ^ 32.
  Proof. intros Hx. unfold to_f_u. destruct (by_bias s); [apply bias_ran; auto|apply (of_int_ran false)]. Qed.
End F.
