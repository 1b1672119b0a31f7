(** Conversions between float32 and 32-bit integers *)
From Verif Require Import Proof.FloatsP3 Proof.FloatRoundP Proof.FArithP Proof.CastP Proof.FConvP Proof.CmpP.
From Verif Require Export Model.FConv.
From Coq Require Import Lia.

(** registers related lane by lane *)
Definition lane_rel (w R : Z) (P : Z -> Z -> Prop) (a r : Z) : Prop := forall i, 0 <= i < R / w -> P (lane w i a) (lane w i r).
Definition lane_dom (w R : Z) (dom : Z -> bool) (a : Z) : Prop := forall i, 0 <= i < R / w -> dom (lane w i a) = true.
Lemma nl_div w R : wok w R = true -> Z.of_nat (nl w R) = R / w.
Proof. intros H. destruct (wok_spec _ _ H) as (Hp & HR & E & En). unfold nl. lia. Qed.
Lemma lane_rel_F2 w R P a r : wok w R = true -> lane_rel w R P a r -> Forall2 P (elems w (nl w R) a) (elems w (nl w R) r).
Proof.
  intros Hw H. unfold elems. pose proof (nl_div w R Hw) as E.
  assert (G : forall l, (forall i, In i l -> (i < nl w R)%nat) -> Forall2 P (map (fun i => lane w (Z.of_nat i) a) l) (map (fun i => lane w (Z.of_nat i) r) l)).
  { induction l as [|i l IH]; intros Hl; [constructor|]. cbn [map]. constructor.
    - apply H. specialize (Hl i (or_introl eq_refl)). lia.
    - apply IH. intros j Hj. apply Hl. right. exact Hj. }
  apply G. intros i Hi. apply in_seq in Hi. lia.
Qed.
Lemma dom_elems w R dom a : wok w R = true -> forallb dom (elems w (nl w R) a) = true -> lane_dom w R dom a.
Proof.
  intros Hw H i Hi. rewrite forallb_forall in H. apply H. unfold elems. apply in_map_iff. exists (Z.to_nat i).
  split; [rewrite Z2Nat.id by lia; reflexivity|]. apply in_seq. pose proof (nl_div w R Hw). lia.
Qed.
Lemma elems_dom w R dom a : wok w R = true -> lane_dom w R dom a -> forallb dom (elems w (nl w R) a) = true.
Proof.
  intros Hw H. apply forallb_forall. intros x Hx. unfold elems in Hx. apply in_map_iff in Hx. destruct Hx as (i & <- & Hi).
  apply H. apply in_seq in Hi. pose proof (nl_div w R Hw). lia.
Qed.
Definition reg_rel (w R : Z) (dom : Z -> bool) (P : Z -> Z -> Prop) (op : Z -> res Z) : Prop :=
  forall a, reg R a -> lane_dom w R dom a -> exists r, op a = Ok r /\ reg R r /\ lane_rel w R P a r.

Theorem lift_rel1 w s op dom P : wok w (rbits s) = true -> reg_rel w (rbits s) dom P op -> relates1 w s (vec_impl1 op) dom P.
Proof.
  intros Hw H va. induction va as [|a va IH]; intros Wa Hd.
  { exists []. split; [reflexivity|]. split; [constructor|constructor]. }
  apply wfv_cons in Wa. destruct Wa as [Ha Wa]. rewrite lanes_cons, forallb_app in Hd. apply andb_prop in Hd. destruct Hd as [Hd1 Hd2].
  destruct (H a Ha (dom_elems _ _ _ _ Hw Hd1)) as (r & Er & Hr & Hrel). destruct (IH Wa Hd2) as (vr & Ev & Wr & HF).
  exists (r :: vr). cbn [vec_impl1]. rewrite Er. cbn [bind]. rewrite Ev. cbn [bind]. split; [reflexivity|].
  split; [apply wfv_cons; auto|]. rewrite !lanes_cons. apply Forall2_app; auto. apply lane_rel_F2; auto.
Qed.
Lemma lift_conv1 w s op dom P T : wok w (rbits s) = true -> reg_rel w (rbits s) dom P op -> conv_rel w w T T s s (vec_impl1 op) dom P.
Proof.
  intros Hw H va Wa La Hd. destruct (lift_rel1 w s op dom P Hw H va Wa Hd) as (vr & Ev & Wr & HF). exists vr. split; auto. split; auto.
  split; auto. rewrite <- La. f_equal. apply (f_equal Z.of_nat). revert Ev. clear. revert vr. induction va as [|a va IH]; cbn [vec_impl1]; intros vr E.
  - injection E as <-. reflexivity.
  - destruct (op a); try discriminate E. cbn [bind] in E. destruct (vec_impl1 op va) as [q| |]; try discriminate E. cbn [bind] in E.
    injection E as <-. cbn [length]. rewrite (IH q); reflexivity.
Qed.
Lemma lift_each w s s' f dom P T : wok w (rbits s) = true ->
  (forall a, reg (rbits s) a -> lane_dom w (rbits s) dom a -> exists l, f a = Ok l /\ wfv s' l /\ Z.of_nat (length l) * rbits s' = rbits s /\
     Forall2 P (elems w (nl w (rbits s)) a) (lanes w s' l)) ->
  conv_rel w w T T s s' (conv_each f) dom P.
Proof.
  intros Hw H va. revert T. induction va as [|a va IH]; intros T Wa La Hd.
  { exists []. split; [reflexivity|]. split; [constructor|]. split; [exact La|constructor]. }
  apply wfv_cons in Wa. destruct Wa as [Ha Wa]. rewrite lanes_cons, forallb_app in Hd. apply andb_prop in Hd. destruct Hd as [Hd1 Hd2].
  destruct (H a Ha (dom_elems _ _ _ _ Hw Hd1)) as (l & El & Wl & Ll & Hrel). destruct (IH (T - rbits s) Wa) as (vr & Ev & Wr & Lr & HF); auto.
  { cbn [length] in La. lia. }
  exists (l ++ vr). cbn [conv_each]. rewrite El. cbn [bind]. rewrite Ev. cbn [bind]. split; [reflexivity|].
  split; [apply wfv_app; auto|]. split; [rewrite app_length; lia|]. rewrite lanes_cons. unfold lanes in *. rewrite flat_map_app. apply Forall2_app; auto.
Qed.
Lemma lift_pairs w s s' f dom P T : wok w (rbits s) = true -> rbits s' = 2 * rbits s ->
  (forall a b, reg (rbits s) a -> reg (rbits s) b -> lane_dom w (rbits s) dom a -> lane_dom w (rbits s) dom b ->
     exists r, f [a; b] = Ok r /\ reg (rbits s') r /\
     Forall2 P (elems w (nl w (rbits s)) a ++ elems w (nl w (rbits s)) b) (elems w (nl w (rbits s')) r)) ->
  (rbits s' | T) -> conv_rel w w T T s s' (conv_pairs f) dom P.
Proof.
  intros Hw HR H HT va. assert (exists n, (length va <= n)%nat) as [n Hn] by (exists (length va); lia). revert va T Hn HT.
  induction n as [|n IH]; intros [|a va] T Hn HT Wa La Hd; cbn [length] in Hn; try lia.
  { exists []. split; [reflexivity|]. split; [constructor|]. split; [exact La|constructor]. }
  { exists []. split; [reflexivity|]. split; [constructor|]. split; [exact La|constructor]. }
  destruct va as [|b va].
  { cbn [length] in La. destruct HT as [q HT]. pose proof (rb_pos s). rewrite HR in HT. assert (1 = 2 * q) by (apply (Z.mul_reg_r _ _ (rbits s)); lia). lia. }
  apply wfv_cons in Wa. destruct Wa as [Ha Wa]. apply wfv_cons in Wa. destruct Wa as [Hb Wa].
  rewrite !lanes_cons, !forallb_app in Hd. apply andb_prop in Hd. destruct Hd as [Hd1 Hd2]. apply andb_prop in Hd2. destruct Hd2 as [Hd2 Hd3].
  destruct (H a b Ha Hb (dom_elems _ _ _ _ Hw Hd1) (dom_elems _ _ _ _ Hw Hd2)) as (r & Er & Hr & Hrel).
  cbn [length] in *. destruct (IH va (T - rbits s')) as (vr & Ev & Wr & Lr & HF); auto; try lia.
  { apply Z.divide_sub_r; auto. apply Z.divide_refl. }
  exists (r :: vr). cbn [conv_pairs]. rewrite Er. cbn [bind]. rewrite Ev. cbn [bind]. split; [reflexivity|].
  split; [apply wfv_cons; auto|]. cbn [length]. split; [lia|]. rewrite !lanes_cons, app_assoc. apply Forall2_app; auto.
Qed.

(** registers of float32 and int32 vectors of the same size *)
Lemma fi_regs A T : valid_arch A = true -> vsize T -> avail_flt A (vregf A T) = true /\
  (vregf A T = vreg A 32 T /\ avail_int A 32 (vregf A T) = true \/ vregf A T = R256 /\ vreg A 32 T = R128 /\ use_avx2 A = false /\ use_avx A = true /\ use_avx512f A = false /\ (256 | T)).
Proof.
  intros HV HT. unfold vregf, vreg, fast_int, fast_flt.
  assert (HD : T <=? 128 = false -> (256 | T)).
  { intros E. apply Z.leb_gt in E. destruct HT as [k ->]. destruct k as [|k]; [cbn in E; lia|]. rewrite Nat2Z.inj_succ, Z.pow_succ_r by lia.
    exists (2 ^ Z.of_nat k). ring. }
  destruct (T <=? 128); [split; [reflexivity|left; split; reflexivity]|].
  destruct (valid_imp A HV) as (Ha & Hb & Hc & Hd' & He).
  destruct (rconf_ok _ HV); rw_flags; cbn [Z.leb]; change (32 <=? 16) with false; cbn iota; destruct (T <=? 256), (use_avx A) eqn:Ev; cbn [avail_flt avail_int];
    rewrite ?Ev; change (32 <=? 16) with false; cbn iota; rw_flags; auto; try (vimp HV); try (split; [reflexivity|right; auto 10]).
Qed.

Lemma v1_dom w R dom f g a : wok w R = true -> lane_dom w R dom a -> (forall x, dom x = true -> f x = g x) -> v1 w R f a = v1 w R g a.
Proof. intros Hw Hd H. apply eq_v1; [exact Hw|apply v1_reg; exact Hw|]. intros i Hi. rewrite lane_v1 by auto. rewrite H by (apply Hd; auto). reflexivity. Qed.
Lemma v1_rel w R f a : wok w R = true -> (forall x, 0 <= x < 2 ^ w -> 0 <= f x < 2 ^ w) -> lane_rel w R (is f) a (v1 w R f a).
Proof. intros Hw Hf i Hi. unfold is. rewrite lane_v1 by auto. apply wrap_small, Hf, lane_range. destruct (wok_spec _ _ Hw). lia. Qed.

(** how the registers of an integer result are stored *)
Definition as_regs (A : arch) (s : rsz) (r : Z) : list Z :=
  match s with R256 => int_regs A r | _ => [r] end.
Lemma as_regs_ok A T r : valid_arch A = true -> vsize T -> reg (rbits (vregf A T)) r ->
  wfv (vreg A 32 T) (as_regs A (vregf A T) r) /\ Z.of_nat (length (as_regs A (vregf A T) r)) * rbits (vreg A 32 T) = rbits (vregf A T) /\
  lanes 32 (vreg A 32 T) (as_regs A (vregf A T) r) = elems 32 (nl 32 (rbits (vregf A T))) r.
Proof.
  intros HV HT Hr. destruct (fi_regs A T HV HT) as [HA [[E1 HI]|(E1 & E2 & E3 & E4 & E5 & ED)]].
  - rewrite <- E1 in *. assert (E : as_regs A (vregf A T) r = [r]).
    { destruct (vregf A T); try reflexivity. cbn [as_regs]. unfold int_regs. cbn [avail_int] in HI. rewrite HI. reflexivity. }
    rewrite E. split; [apply wfv_cons; split; [auto|constructor]|]. split; [cbn [length]; lia|]. rewrite lanes_cons. unfold lanes. cbn [flat_map]. apply app_nil_r.
  - rewrite E1, E2 in *. cbn [as_regs]. unfold int_regs. rewrite E3.
    change (let '(r1, r2) := i_split1 R256 r in [r1; r2]) with (halves R256 r).
    destruct (split_lanes 32 R256 R128 r) as [W L]; [unfold lw; tauto|left; auto|]. auto.
Qed.

Section I.
  Variable A : arch.
  Hypothesis HV : valid_arch A = true.
  Variables (dom : Z -> bool) (F : Z -> Z).
  Hypothesis HN : use_null A || use_neon_no_flt_sp A = true -> forall x, dom x = true -> fits_s32 x = true /\ F x = wrap 32 (f_int 32 x).
  Hypothesis HX : use_sse2 A = true -> forall x, dom x = true -> mm_cvtt_s x = F x.
  Hypothesis HS : use_null A || use_neon_no_flt_sp A || use_sse2 A = false -> forall x, dom x = true -> sat_s x = F x.
  Lemma w32 s : wok 32 (rbits s) = true. Proof. destruct s; reflexivity. Qed.
  Lemma i_to_int32_f_ok s a : avail_flt A s = true -> lane_dom 32 (rbits s) dom a ->
    i_to_int32_f A s a = Ok (as_regs A s (v1 32 (rbits s) F a)).
  Proof.
    intros HA Hd.
    assert (HXr : use_sse2 A = true -> v1 32 (rbits s) mm_cvtt_s a = v1 32 (rbits s) F a) by (intros E; apply (v1_dom _ _ dom); auto using w32).
    destruct s; cbn [i_to_int32_f as_regs rbits avail_flt] in *.
    - assert (HNr : use_null A || use_neon_no_flt_sp A = true -> c_cvt fits_s32 a = Ok (v1 32 128 F a)).
      { intros E. unfold c_cvt. assert (forallb fits_s32 (elems 32 4 a) = true) as ->.
        { change 4%nat with (nl 32 128). apply elems_dom; [reflexivity|]. intros i Hi. apply HN; auto. }
        apply f_equal. apply (v1_dom _ _ dom); [reflexivity|exact Hd|]. intros x Hx. symmetry. apply HN; auto. }
      assert (HSr : use_null A || use_neon_no_flt_sp A || use_sse2 A = false -> v1 32 128 sat_s a = v1 32 128 F a)
        by (intros E; apply (v1_dom _ _ dom); auto).
      clear HN HX HS. unfold use_neon_no_flt_sp in *.
      fam HV; rw_flags; cbn [orb andb negb]; repeat split_if; cbn [orb andb negb bind];
      first [rewrite HNr by (rw_flags; reflexivity); reflexivity | rewrite HXr by (rw_flags; reflexivity); reflexivity
            | rewrite HSr by (rw_flags; reflexivity); reflexivity | fcontra | vimp HV ].
    - rewrite HA, HXr by (apply avx_sse; auto). reflexivity.
    - rewrite HA, HXr by (apply avx_sse, avx512_avx; auto). reflexivity.
  Qed.
End I.
