(** Shifts by a vector of counts: 32 bits, and the ladders *)
From Verif Require Import Model.ShiftV Proof.CppLemmas Proof.BitwiseP Proof.MakeConstP Proof.ArithP Proof.ShiftP Proof.PopcntP Proof.BytesP Proof.ShiftVP Proof.ShiftVP2 Proof.ShiftVP3 Proof.ShiftVP4.

Lemma z16 i : 0 <= i < 16 -> In i (zrange 16). Proof. intros. apply in_zrange; lia. Qed.
Lemma blend16_lane imm a b k : 0 <= k < 8 -> lane 16 k (mm_blend_epi16 128 imm a b) = if Z.testbit imm k then lane 16 k b else lane 16 k a.
Proof.
  intros Hk. unfold mm_blend_epi16. pose proof (lane_lsh 16 128 8 (fun k => if Z.testbit imm k then fromB k else fromA k) [a; b] 0 k eq_refl ltac:(lia) ltac:(change (128 / (8 * 16)) with 1; lia)) as L.
  change (8 * 0 + k) with k in L. etransitivity; [exact L|]. destruct (Z.testbit imm k); reflexivity.
Qed.
Lemma blend32_lane imm a b k : 0 <= k < 4 -> Z.testbit imm (2 * k + 1) = Z.testbit imm (2 * k) -> lane 32 k (mm_blend_epi16 128 imm a b) = if Z.testbit imm (2 * k) then lane 32 k b else lane 32 k a.
Proof.
  intros Hk HT. pose proof (lane_double 16 k (mm_blend_epi16 128 imm a b)) as D. pose proof (lane_double 16 k a) as Da. pose proof (lane_double 16 k b) as Db. change (16 * 2) with 32 in *. rewrite D, Da, Db by lia. rewrite !blend16_lane by lia. rewrite HT. destruct (Z.testbit imm (2 * k)); reflexivity.
Qed.
Lemma bsrli32_lane t a k : 0 <= t < 4 -> 0 <= k < 4 -> lane 32 k (mm_bsrli 128 (4 * t) a) = if k + t <? 4 then lane 32 (k + t) a else 0.
Proof.
  intros Ht Hk. apply (reg_lanes 8 32); [reflexivity|apply lane_range; lia|destruct (k + t <? 4); [apply lane_range; lia|split; reflexivity || lia]|].
  intros j Hj. change (32 / 8) with 4 in Hj. pose proof (lane_lane 8 4 k j (mm_bsrli 128 (4 * t) a)) as L. change (8 * 4) with 32 in L. rewrite L by lia.
  pose proof (lane_lsh 8 128 16 (fun k => if k + 4 * t <? 16 then fromA (k + 4 * t) else zlane) [a] 0 (k * 4 + j) eq_refl ltac:(lia) ltac:(change (128 / (16 * 8)) with 1; lia)) as S. change (16 * 0 + (k * 4 + j)) with (k * 4 + j) in S.
  etransitivity; [exact S|]. clear S L. destruct (Z.ltb_spec (k * 4 + j + 4 * t) 16), (Z.ltb_spec (k + t) 4); try lia.
  - pose proof (lane_lane 8 4 (k + t) j a) as M. change (8 * 4) with 32 in M. rewrite M by lia. cbn [nth]. f_equal; lia.
  - rewrite lane_of_zero. reflexivity.
Qed.
Lemma sps_lane imm a b k : 0 <= k < 4 -> lane 32 k (mm_shuffle_ps 128 imm a b) = lane 32 (i2 imm k) (if k <? 2 then a else b).
Proof.
  intros Hk. unfold mm_shuffle_ps. pose proof (lane_lsh 32 128 4 (fun k => if k <? 2 then fromA (i2 imm k) else fromB (i2 imm k)) [a; b] 0 k eq_refl ltac:(lia) ltac:(change (128 / (4 * 32)) with 1; lia)) as L.
  change (4 * 0 + k) with k in L. etransitivity; [exact L|]. destruct (k <? 2); reflexivity.
Qed.
Lemma low64 c : low_count c = lane 32 0 c + lane 32 1 c * 2 ^ 32.
Proof. unfold low_count. pose proof (lane_double 32 0 c) as L. change (32 * 2) with 64 in L. rewrite L by lia. reflexivity. Qed.
Lemma srl64_32 c : low_count (mm_srl 64 128 c 32) = lane 32 1 c.
Proof.
  unfold low_count, mm_srl. rewrite lane_v1 by (try reflexivity; change (128 / 64) with 2; lia). change (32 <? 64) with true. cbv iota. pose proof (lane_double 32 0 c) as L. change (32 * 2) with 64 in L. rewrite L by lia. change (2 * 0) with 0. change (0 + 1) with 1.
  pose proof (lane_range 32 0 c ltac:(lia)). pose proof (lane_range 32 1 c ltac:(lia)). rewrite Z.shiftr_div_pow2 by lia. rewrite Z.div_add by lia. rewrite Z.div_small by lia. rewrite Z.add_0_l. apply wrap_small. split; [lia|]. eapply Z.lt_le_trans; [apply H0|]. apply Z.pow_le_mono_r; lia.
Qed.
Section P.
  Variables (A : arch).
  Hypotheses (HV : valid_arch A = true).
  Definition c4 (k : Z) (x0 x1 x2 x3 : Z) := if k =? 0 then x0 else if k =? 1 then x1 else if k =? 2 then x2 else x3.
  Lemma four_shifts_ok sh g a c : (forall a k, sh a k = v1 32 128 (g k) a) -> reg 128 a -> reg 128 c ->
    four_shifts A sh a c = Ok (v2 32 128 (fun x k => g k x) a c).
  Proof.
    intros Hsh Ha Hc. unfold four_shifts.
    assert (M0 : exists m, (if use_sse41 A then Ok (mm_blend_epi16 128 0xcc c 0) else let* mask := i_make_const A W32 R128 [0xffffffff; 0; 0xffffffff; 0] 0 in i_bit_and A W32 R128 c mask) = Ok m /\
      lane 32 0 m = lane 32 0 c /\ lane 32 1 m = 0 /\ lane 32 2 m = lane 32 2 c /\ lane 32 3 m = 0).
    { destruct (use_sse41 A).
      - eexists. split; [reflexivity|]. rewrite !blend32_lane by (try reflexivity; lia). split; [reflexivity|]. split; [apply lane_of_zero|]. split; [reflexivity|apply lane_of_zero].
      - rewrite i_make_const_ok by (auto; cbn; lia). cbn [bind wb rbits]. set (t := pack 32 128 _). rewrite i_bit_and_ok by (auto; apply pack_reg; reflexivity). eexists. split; [reflexivity|]. rewrite !lane_land by lia.
        assert (LT : forall k, 0 <= k < 4 -> lane 32 k t = wrap 32 (cval_at [0xffffffff; 0; 0xffffffff; 0] (0 + k))) by (intros k Hk; apply lane_pack; [reflexivity|exact Hk]). rewrite !LT by lia.
        change (wrap 32 (cval_at [0xffffffff; 0; 0xffffffff; 0] (0 + 0))) with (Z.ones 32). change (wrap 32 (cval_at [0xffffffff; 0; 0xffffffff; 0] (0 + 2))) with (Z.ones 32). change (wrap 32 (cval_at [0xffffffff; 0; 0xffffffff; 0] (0 + 1))) with 0. change (wrap 32 (cval_at [0xffffffff; 0; 0xffffffff; 0] (0 + 3))) with 0.
        rewrite !Z.land_ones, !Z.land_0_r by lia. rewrite !Z.mod_small by (apply lane_range; lia). auto. }
    destruct M0 as (m & -> & L0 & L1 & L2 & L3). cbn [bind]. rewrite srl64_32. rewrite !low64. pose proof (bsrli32_lane 2 m 0 ltac:(lia) ltac:(lia)) as B0. pose proof (bsrli32_lane 2 m 1 ltac:(lia) ltac:(lia)) as B1. pose proof (bsrli32_lane 3 c 0 ltac:(lia) ltac:(lia)) as B2. pose proof (bsrli32_lane 3 c 1 ltac:(lia) ltac:(lia)) as B3.
    change (lane 32 0 (mm_bsrli 128 8 m) = lane 32 2 m) in B0. change (lane 32 1 (mm_bsrli 128 8 m) = lane 32 3 m) in B1. change (lane 32 0 (mm_bsrli 128 12 c) = lane 32 3 c) in B2. change (lane 32 1 (mm_bsrli 128 12 c) = 0) in B3. rewrite B0, B1, B2, B3. clear B0 B1 B2 B3.
    rewrite L0, L1, L2, L3. rewrite !Z.mul_0_l, !Z.add_0_r. rewrite !Hsh. f_equal.
    assert (LV : forall k x, 0 <= k < 4 -> lane 32 k (v1 32 128 x a) = wrap 32 (x (lane 32 k a))) by (intros k x Hk; apply lane_v1; [reflexivity|exact Hk]).
    assert (E : forall r, reg 128 r -> (forall k, 0 <= k < 4 -> lane 32 k r = wrap 32 (g (lane 32 k c) (lane 32 k a))) -> r = v2 32 128 (fun x k => g k x) a c) by (intros r Hr H; apply eq_v2; [reflexivity|exact Hr|exact H]).
    assert (K4 : forall k, 0 <= k < 4 -> k = 0 \/ k = 1 \/ k = 2 \/ k = 3) by lia.
    destruct (use_sse41 A); cbv zeta; (apply E; [apply lsh_reg; reflexivity|]); intros k Hk; destruct (K4 k Hk) as [-> |[-> |[-> | ->]]].
    1-4: rewrite !blend32_lane by (try reflexivity; lia); repeat match goal with |- context [Z.testbit ?x ?y] => let v := eval vm_compute in (Z.testbit x y) in change (Z.testbit x y) with v end; cbv iota; rewrite LV by lia; reflexivity.
    all: repeat (rewrite sps_lane by lia; repeat match goal with |- context [i2 ?x ?y] => let v := eval vm_compute in (i2 x y) in change (i2 x y) with v | |- context [?x <? ?y] => let v := eval vm_compute in (x <? y) in change (x <? y) with v end; cbv iota); rewrite LV by lia; reflexivity.
  Qed.
  Lemma sv_ladder_ok s nul x86 vshl (right : bool) w c vec msa r : s = R128 ->
    (use_null A = true -> nul = Ok r) -> (use_null A = false -> use_sse2 A = true -> x86 = Ok r) -> vshl (if right then v1 (wb w) 128 Z.opp c else c) = r -> vec = r -> msa = r ->
    sv_ladder A nul x86 vshl right w c vec msa = Ok r.
  Proof.
    intros _ H1 H2 H3 H4 H5. unfold sv_ladder. destruct (use_null A) eqn:E0; auto. destruct (use_sse2 A) eqn:E1; auto. destruct (use_neon A) eqn:E2.
    { destruct right; [|rewrite H3; reflexivity]. rewrite i_neg_ok; [cbn [bind rbits]; rewrite H3; reflexivity|auto|reflexivity|].
      intros SC. exfalso. revert SC. unfold scalar. rewrite E0. destruct (use_altivec A) eqn:EA; [exfalso; fam HV; fcontra|]. destruct w; discriminate. }
    destruct (use_altivec A) eqn:E3; [rewrite H4; reflexivity|]. destruct (use_msa A) eqn:E4; [rewrite H5; reflexivity|]. exfalso. fam HV; fcontra.
  Qed.
End P.
