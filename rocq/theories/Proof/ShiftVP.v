(** Shifts by a vector of counts: the simple rungs *)
From Verif Require Import Model.ShiftV Proof.CppLemmas Proof.BitwiseP Proof.MakeConstP Proof.ArithP Proof.ShiftP Proof.PopcntP.

Definition fr (sg : bool) (w x c : Z) : Z := Z.shiftr (if sg then sgn w x else x) c.
Definition cok (w R c : Z) : Prop := forall i, 0 <= i < R / w -> lane w i c < w.
Lemma v2_at w R f g a c : wok w R = true -> (forall i, 0 <= i < R / w -> wrap w (f (lane w i a) (lane w i c)) = wrap w (g (lane w i a) (lane w i c))) -> v2 w R f a c = v2 w R g a c.
Proof.
  intros HW H. apply (reg_lanes w R); auto using v2_reg. intros i Hi. rewrite !lane_v2 by auto. apply H; auto.
Qed.
Lemma null_shl_v_ok w a c : cok (wb w) 128 c -> null_shift_l_v (ut w) (ut w) 128 a c = Ok (v2 (wb w) 128 Z.shiftl a c).
Proof.
  intros HC. unfold null_shift_l_v, v2. assert (Et : snd (ut w) = wb w) by (destruct w; reflexivity). replace (wb w) with (snd (ut w)) by exact Et.
  apply (nloop_pack (ut w)); [rewrite Et; apply (wok_lib w R128)|]. rewrite Et. intros i Hi. specialize (HC i Hi). unfold el. rewrite Et.
  pose proof (lane_range (wb w) i a ltac:(pose proof (wb_pos w); lia)) as Hx. pose proof (lane_range (wb w) i c ltac:(pose proof (wb_pos w); lia)) as Hc. set (x := lane (wb w) i a) in *. set (k := lane (wb w) i c) in *. clearbody x k.
  assert (forall y, 0 <= y < 2 ^ wb w -> cconv (ut w) y = y) as CC. { intros y Hy. destruct w; cbn [ut cconv]; apply Z.mod_small; exact Hy. }
  rewrite !CC by auto. rewrite Z.shiftl_mul_pow2 by lia.
  assert (0 < 2 ^ k <= 2 ^ (wb w - 1)). { split; [apply Z.pow_pos_nonneg; lia|]. apply Z.pow_le_mono_r; lia. }
  destruct w; cbn [wb] in *; unfold c_shl, promote; cbn -[Z.pow Z.mul Z.leb wrap sgn];
  match goal with |- context [?m <=? k] => destruct (Z.leb_spec m k); [lia|] end;
  (destruct (Z.ltb_spec k 0); [lia|]); cbn [orb].
  all: try (destruct (Z.ltb_spec x 0); [lia|]; destruct (Z.ltb_spec (x * 2 ^ k) (2 ^ 32)); [|nia]).
  all: eexists; split; [reflexivity|]; cbn [snd]; rewrite ?wrap_wrap; try reflexivity.
  - apply wrap_sgn_lo; lia.
  - apply wrap_sgn_lo; lia.
Qed.
Lemma null_shr_v_ok (sg : bool) w a c : cok (wb w) 128 c -> null_shift_r_v (if sg then st w else ut w) (ut w) 128 a c = Ok (v2 (wb w) 128 (fr sg (wb w)) a c).
Proof.
  intros HC. unfold null_shift_r_v, v2. set (t := if sg then st w else ut w). assert (Et : snd t = wb w) by (destruct sg, w; reflexivity). replace (wb w) with (snd t) by exact Et.
  apply (nloop_pack t); [rewrite Et; apply (wok_lib w R128)|]. rewrite Et. intros i Hi. specialize (HC i Hi). unfold el. rewrite Et. assert (Eu : snd (ut w) = wb w) by (destruct w; reflexivity). rewrite Eu.
  pose proof (lane_range (wb w) i a ltac:(pose proof (wb_pos w); lia)) as Hx. pose proof (lane_range (wb w) i c ltac:(pose proof (wb_pos w); lia)) as Hc. set (x := lane (wb w) i a) in *. set (k := lane (wb w) i c) in *. clearbody x k.
  assert (cconv (ut w) k = k) as ->. { destruct w; cbn [ut cconv]; apply Z.mod_small; exact Hc. }
  assert (cconv t x = if sg then sgn (wb w) x else x) as ->.
  { destruct sg, w; cbn [ut st cconv t]; try reflexivity; apply Z.mod_small; exact Hx. }
  unfold fr. set (y := if sg then _ else x).
  destruct sg, w; cbn [wb] in *; unfold c_shr, promote; cbn -[Z.pow Z.mul Z.leb wrap sgn y];
  match goal with |- context [?m <=? k] => destruct (Z.leb_spec m k); [lia|] end;
  (destruct (Z.ltb_spec k 0); [lia|]); cbn [orb]; eexists; split; reflexivity.
Qed.
Section V.
  Variables (w R : Z).
  Hypotheses (HW : wok w R = true).
  Variables (a c : Z).
  Hypothesis (HC : cok w R c).
  Lemma cnt_range i : 0 <= lane w i c. Proof. destruct (wok_spec _ _ HW). pose proof (lane_range w i c). lia. Qed.
  Lemma mm_sllv_ok : mm_sllv w R a c = v2 w R Z.shiftl a c.
  Proof. apply v2_at; auto. intros i Hi. destruct (Z.ltb_spec (lane w i c) w); [reflexivity|specialize (HC i Hi); lia]. Qed.
  Lemma mm_srlv_ok : mm_srlv w R a c = v2 w R (fr false w) a c.
  Proof. apply v2_at; auto. intros i Hi. destruct (Z.ltb_spec (lane w i c) w); [reflexivity|specialize (HC i Hi); lia]. Qed.
  Lemma mm_srav_ok : mm_srav w R a c = v2 w R (fr true w) a c.
  Proof. apply v2_at; auto. intros i Hi. destruct (Z.ltb_spec (lane w i c) w); [reflexivity|specialize (HC i Hi); lia]. Qed.
End V.
Section N.
  Variables (w : Z).
  Hypotheses (HW : wok w 128 = true).
  Variables (a c : Z).
  Hypothesis (HC : cok w 128 c).
  Ltac small := let i := fresh "i" in let Hi := fresh in intros i Hi; specialize (HC i Hi); pose proof (cnt_range w 128 HW c i); rewrite Z.mod_small by lia; reflexivity.
  Lemma vec_slv : vec_sl w a c = v2 w 128 Z.shiftl a c. Proof. apply v2_at; auto. small. Qed.
  Lemma vec_srv : vec_sr w a c = v2 w 128 (fr false w) a c. Proof. apply v2_at; auto. small. Qed.
  Lemma vec_srav : vec_sra w a c = v2 w 128 (fr true w) a c. Proof. apply v2_at; auto. small. Qed.
  Lemma msa_slv : msa_sll w a c = v2 w 128 Z.shiftl a c. Proof. apply v2_at; auto. small. Qed.
  Lemma msa_srv : msa_srl w a c = v2 w 128 (fr false w) a c. Proof. apply v2_at; auto. small. Qed.
  Lemma msa_srav : msa_sra w a c = v2 w 128 (fr true w) a c. Proof. apply v2_at; auto. small. Qed.
  Hypothesis (Hw8 : 8 <= w <= 64).
  Lemma sgn8_cnt x : 0 <= x < 64 -> sgn 8 x = x.
  Proof. intros Hx. apply sgn_id; [lia|]. change (2 ^ (8 - 1)) with 128. lia. Qed.
  Lemma neon_slv : vshlq_u w a c = v2 w 128 Z.shiftl a c.
  Proof. apply v2_at; auto. intros i Hi. specialize (HC i Hi). pose proof (cnt_range w 128 HW c i). rewrite sgn8_cnt by lia. cbv zeta. destruct (Z.leb_spec 0 (lane w i c)); [reflexivity|lia]. Qed.
  Lemma neon_srv (sg : bool) : (if sg then vshlq_s w else vshlq_u w) a (v1 w 128 Z.opp c) = v2 w 128 (fr sg w) a c.
  Proof.
    apply (reg_lanes w 128); [auto|destruct sg; apply v2_reg; auto|apply v2_reg; auto|]. intros i Hi. specialize (HC i Hi). pose proof (cnt_range w 128 HW c i).
    destruct sg; unfold vshlq_s, vshlq_u, fr; rewrite !lane_v2, lane_v1 by auto; rewrite sgn8_wrapn by lia; cbv zeta;
    (destruct (Z.leb_spec 0 (- lane w i c)) as [E|E]; [assert (lane w i c = 0) as -> by lia; change (- 0) with 0; rewrite Z.shiftl_0_r, Z.shiftr_0_r, ?wrap_sgn by lia; reflexivity|]);
    rewrite Z.opp_involutive; reflexivity.
  Qed.
End N.
(** srav on a register cast to 512 bits *)
Lemma srav_wide R a c : R = 128 \/ R = 256 -> cok 16 R c -> lane R 0 (mm_srav 16 512 a c) = v2 16 R (fr true 16) a c.
Proof.
  intros HR HC. assert (HW : wok 16 R = true) by (destruct HR as [-> | ->]; reflexivity). assert (HR' : R / 16 <= 32 /\ R = 16 * (R / 16) /\ 0 < R) by (destruct HR as [-> | ->]; cbn; lia). apply (reg_lanes 16 R); [auto|apply lane_range; lia|apply v2_reg; auto|].
  intros i Hi. destruct HR' as (H1 & H2 & H3). rewrite H2 at 1. rewrite lane_lane by lia. change (0 * (R / 16) + i) with i. unfold mm_srav. rewrite !lane_v2 by (auto; change (512 / 16) with 32; lia).
  specialize (HC i Hi). destruct (Z.ltb_spec (lane 16 i c) 16); [reflexivity|lia].
Qed.
