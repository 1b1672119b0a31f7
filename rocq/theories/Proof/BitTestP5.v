(** extract_bits_any of 16, 32 and 64-bit lanes *)
From Verif Require Import Spec.BitTest Model.BitTest Proof.CppLemmas Proof.BitwiseP Proof.MakeConstP Proof.MoveP Proof.UnzipP Proof.ExtractP Proof.ExtractP2 Proof.ShiftP
  Proof.PopcntP Proof.ReduceP Proof.ReduceP6 Proof.ReduceMulP Proof.BitTestP Proof.BitTestP2 Proof.BitTestP3 Proof.BitTestP4.

Lemma high_zero n x i : 0 <= n <= i -> 0 <= x < 2 ^ n -> Z.testbit x i = false.
Proof.
  intros Hi Hx. destruct (Z.eq_dec x 0) as [->|]; [apply Z.bits_0|]. apply Z.bits_above_log2; [lia|]. apply Z.log2_lt_pow2; [lia|]. eapply Z.lt_le_trans; [apply Hx|apply Z.pow_le_mono_r; lia].
Qed.
Lemma lor_parts n x y : 0 <= n -> 0 <= x < 2 ^ n -> Z.lor x (y * 2 ^ n) = x + y * 2 ^ n.
Proof.
  intros Hn Hx. symmetry. rewrite <- (Z.lxor_lor x (y * 2 ^ n)); [|]; [apply Z.add_nocarry_lxor|];
    (apply Z.bits_inj'; intros i Hi; rewrite Z.land_spec, Z.bits_0, <- Z.shiftl_mul_pow2, Z.shiftl_spec by lia;
     destruct (Z_lt_dec i n); [rewrite (Z.testbit_neg_r y) by lia; apply Bool.andb_false_r|rewrite (high_zero n x i) by lia; reflexivity]).
Qed.
(** lane i answers with bit p i *)
Definition answers (w n : Z) (m : res Z) (a : Z) : Prop :=
  exists r p, m = Ok r /\ (forall i, 0 <= i < n -> 0 <= p i < w) /\ bits_of n (fun i => Z.testbit (lane w i a) (p i)) r.
Lemma answers_bmk w k m a r : (Z.of_nat k <= w) -> m = Ok r -> r = bmk k (fun i => Z.testbit (lane w i a) i) -> answers w (Z.of_nat k) m a.
Proof. intros Hk E ->. eexists _, (fun i => i). split; [exact E|]. split; [intros; lia|]. apply bmk_bits. Qed.
Lemma answers_km w R m a : wok w R = true -> m = Ok (kmask w R (fun i => Z.testbit (lane w i a) (w - 1))) -> answers w (R / w) m a.
Proof.
  intros HW E. destruct (wok_spec _ _ HW) as (Hw & HR & HE & Hn). eexists _, (fun _ => w - 1). split; [exact E|]. split; [intros; lia|]. split.
  - unfold kmask. pose proof (mk_range 1 (nl w R) (fun i => Z.b2z (Z.testbit (lane w i a) (w - 1))) ltac:(lia)) as M. rewrite Z.mul_1_l, Hn in M. exact M.
  - intros i Hi. rewrite MaskP.testbit_kmask by auto. reflexivity.
Qed.
Lemma answers_null w k m a : 0 < k <= 8 -> 8 <= w -> m = Ok (null_bits 8 (k - 1) (fun i => lane w i a) k) -> answers w k m a.
Proof.
  intros Hk Hw E. eexists _, (fun _ => 0). split; [exact E|]. split; [intros; lia|].
  pose proof (null_bits_ok 8 (k - 1) (fun i => lane w i a) ltac:(lia)) as B. replace (k - 1 + 1) with k in B by lia. exact B.
Qed.
Lemma answers_wrap w n m a : 0 <= n <= 8 -> answers w n m a -> answers w n (let* r := m in Ok (wrap 8 r)) a.
Proof.
  intros Hn (r & p & -> & Hp & B). exists (wrap 8 r), p. split; [reflexivity|]. split; auto. destruct B as [B1 B2]. rewrite wrap_small; [split; auto|]. split; [lia|]. eapply Z.lt_le_trans; [apply B1|apply Z.pow_le_mono_r; lia].
Qed.
Lemma null_bits_ext n top x y c : (forall i, Z.land (x i) 1 = Z.land (y i) 1) -> null_bits n top x c = null_bits n top y c.
Proof.
  intros H. unfold null_bits. generalize (zrange c) as l, 0 as r. induction l as [|a l IH]; intros r; [reflexivity|]. cbn [fold_left]. rewrite H. apply IH.
Qed.
Lemma land1_wrap x : Z.land (wrap 8 x) 1 = Z.land x 1.
Proof.
  change 1 with (2 ^ 0). rewrite !land_pow2 by lia. rewrite testbit_wrap by lia. reflexivity.
Qed.
Lemma neon_low r v : lane 64 0 r + lane 64 1 r = v -> 0 <= v < 256 -> neon_sum_low r = v.
Proof. intros E Hv. unfold neon_sum_low. rewrite E, lane_0 by lia. rewrite (wrap_small 64) by (change (2 ^ 64) with 18446744073709551616; lia). apply wrap_small. change (2 ^ 8) with 256. lia. Qed.

Section L.
  Variables (A : arch) (fp : Z).
  Hypotheses (HV : valid_arch A = true) (Hfp : fp mod 64 = 0).
  Lemma msa_fin e y x0 x1 : e = I16 \/ e = I32 -> reg 128 y -> lane 64 0 y = x0 -> lane 64 1 y = x1 -> 0 <= x0 < 256 -> 0 <= x1 < 256 ->
    (let* m := i_move_l A e R128 (64 / eb e) y in let* b := i_bit_or A (if eb e =? 16 then W16 else W32) R128 y m in i_extract A fp false e R128 0 b) = Ok (Z.lor x0 x1).
  Proof.
    intros He Hy N0 N1 H0 H1. assert (HA : avail_et A e R128 = true) by (destruct He as [-> | ->]; reflexivity).
    rewrite i_move_l_ok by (auto; destruct He as [-> | ->]; try reflexivity; cbn; lia). cbn [bind rbits].
    set (b := eb e) in *. assert (HB : en e = 128 / b /\ (b = 16 \/ b = 32)) by (destruct He as [-> | ->]; cbn; auto). destruct HB as [En Hb]. rewrite En.
    assert (Hm : reg 128 (lsh b 128 (128 / b) (p_move_l (128 / b) (64 / b)) [y])) by (apply lsh_reg; destruct Hb as [-> | ->]; reflexivity).
    rewrite i_bit_or_ok by (auto; destruct (b =? 16); reflexivity). cbn [bind]. rewrite (ext_l A fp HV Hfp); [|auto|apply lor_reg; auto; lia|fold b; destruct Hb as [-> | ->]; lt]. fold b. f_equal. rewrite lane_lor by (destruct Hb; lia).
    assert (P0 : lane b 0 y = x0).
    { pose proof (small_lane b 0 0 y _ N0) as P. rewrite Z.mul_0_r in P. apply P; try lia; destruct Hb as [-> | ->]; try lt; cbn; lia. }
    assert (P1 : lane b (64 / b) y = x1).
    { pose proof (small_lane b 1 0 y _ N1) as P. rewrite Z.mul_1_r, Z.add_0_r in P. apply P; try lia; destruct Hb as [-> | ->]; try lt; cbn; lia. }
    rewrite P0. f_equal. rewrite <- P1. clearbody b. destruct Hb as [-> | ->].
    - etransitivity; [apply (lane_lsh 16 128 (128 / 16) _ [y] 0 0); lt|reflexivity].
    - etransitivity; [apply (lane_lsh 32 128 (128 / 32) _ [y] 0 0); lt|reflexivity].
  Qed.
  (** ---------- 16 bits ---------- *)
  Lemma any16_ok a : reg 128 a -> answers 16 8 (i_extract_bits_any16 A fp a) a.
  Proof.
    intros Ha. unfold i_extract_bits_any16. apply answers_wrap; [lia|].
    destruct (use_null A) eqn:E0; [apply answers_null; try lia; reflexivity|].
    destruct (use_avx512bw A) eqn:EB; [apply (answers_km 16 128); reflexivity|].
    destruct (use_sse2 A) eqn:E1.
    { rewrite i_unzip_lo_ok by (auto; lt). cbn [bind rbits]. change (eb I8) with 8. change (en I8) with 16. set (u := lsh 8 128 16 (p_unzip_lo 16) [a; 0]).
      assert (U : forall k, 0 <= k < 8 -> lane 8 k u = lane 8 (2 * k) a).
      { intros k Hk. unfold u. pose proof (lane_lsh 8 128 16 (p_unzip_lo 16) [a; 0] 0 k eq_refl ltac:(lia) ltac:(lt)) as L. change (16 * 0 + k) with k in L. rewrite L. unfold p_unzip_lo. change (16 / 2) with 8. destruct (Z.ltb_spec k 8); [|lia]. reflexivity. }
      assert (U0 : forall k, 8 <= k < 16 -> lane 8 k u = 0).
      { intros k Hk. unfold u. pose proof (lane_lsh 8 128 16 (p_unzip_lo 16) [a; 0] 0 k eq_refl ltac:(lia) ltac:(lt)) as L. change (16 * 0 + k) with k in L. rewrite L. unfold p_unzip_lo. change (16 / 2) with 8. destruct (Z.ltb_spec k 8); [lia|]. cbn [nth]. apply lane_of_zero. }
      assert (TB : forall i, 0 <= i < 16 -> Z.testbit (mm_movemask 8 128 u) i = Z.testbit (lane 8 i u) 7) by (intros i Hi; unfold mm_movemask; rewrite MaskP.testbit_kmask by (try reflexivity; exact Hi); reflexivity).
      assert (RG : 0 <= mm_movemask 8 128 u < 2 ^ 16) by (unfold mm_movemask, kmask; apply mk_range; lia).
      assert (RG8 : mm_movemask 8 128 u = wrap 8 (mm_movemask 8 128 u)).
      { apply (bits_ext 16); [lia|exact RG|pose proof (wrap_range 8 (mm_movemask 8 128 u) ltac:(lia)); change (2 ^ 8) with 256 in *; change (2 ^ 16) with 65536; lia|].
        intros i Hi. rewrite testbit_wrap by lia. destruct (Z.ltb_spec i 8); [reflexivity|]. rewrite TB, U0, Z.bits_0 by lia. reflexivity. }
      eexists _, (fun _ => 7). split; [reflexivity|]. split; [intros; lia|]. split; [rewrite RG8; apply wrap_range; lia|].
      intros i Hi. rewrite TB, U by lia. pose proof (UnzipP.lane_lo 8 i a) as LL. change (2 * 8) with 16 in LL. rewrite <- LL by lia. rewrite testbit_wrap by lia. reflexivity. }
    destruct (masked A HV W16 8 a ltac:(cbn; lia) (Nat.lt_0_succ 7) Ha) as (x & E & Hx & M). cbn [wb] in M. change (128 / 16) with 8 in M.
    assert (M' : forall i, 0 <= i < 8 -> lane 16 i x = Z.b2z (Z.testbit (lane 16 i a) i) * 2 ^ i) by (intros i Hi; rewrite M by lia; rewrite Z.mod_small by lia; reflexivity).
    set (f := fun i => Z.testbit (lane 16 i a) i) in *.
    pose proof (M' 0 ltac:(lia)) as X0. pose proof (M' 1 ltac:(lia)) as X1. pose proof (M' 2 ltac:(lia)) as X2. pose proof (M' 3 ltac:(lia)) as X3.
    pose proof (M' 4 ltac:(lia)) as X4. pose proof (M' 5 ltac:(lia)) as X5. pose proof (M' 6 ltac:(lia)) as X6. pose proof (M' 7 ltac:(lia)) as X7.
    pose proof (bmk8 f) as BM. pose proof (bmk_range 8 f) as BR. change (2 ^ Z.of_nat 8) with 256 in BR. unfold f in BM. fold f in BM.
    change (2 ^ 0) with 1 in *. change (2 ^ 1) with 2 in *. change (2 ^ 2) with 4 in *. change (2 ^ 3) with 8 in *. change (2 ^ 4) with 16 in *. change (2 ^ 5) with 32 in *. change (2 ^ 6) with 64 in *. change (2 ^ 7) with 128 in *.
    pose proof (b2z_range (Z.testbit (lane 16 0 a) 0)). pose proof (b2z_range (Z.testbit (lane 16 1 a) 1)). pose proof (b2z_range (Z.testbit (lane 16 2 a) 2)). pose proof (b2z_range (Z.testbit (lane 16 3 a) 3)).
    pose proof (b2z_range (Z.testbit (lane 16 4 a) 4)). pose proof (b2z_range (Z.testbit (lane 16 5 a) 5)). pose proof (b2z_range (Z.testbit (lane 16 6 a) 6)). pose proof (b2z_range (Z.testbit (lane 16 7 a) 7)).
    destruct (use_neon A) eqn:E2.
    { rewrite bind2, E. cbn [bind]. apply (answers_bmk 16 8 _ a _ ltac:(cbn; lia) eq_refl). fold f. apply neon_low; [|lia].
      rewrite (paddl_lane 32 _ 0), (paddl_lane 32 _ 1) by lt. rewrite !(paddl_lane 16) by lt.
      change (2 * (2 * 0)) with 0. change (0 + 1) with 1. change (2 * (2 * 0 + 1)) with 2. change (2 + 1) with 3. change (2 * (2 * 1)) with 4. change (4 + 1) with 5. change (2 * (2 * 1 + 1)) with 6. change (6 + 1) with 7. lia. }
    destruct (use_altivec A) eqn:E3.
    { rewrite bind2, E. cbn [bind]. rewrite (ext_l A fp HV Hfp); [|reflexivity|apply pack_reg; reflexivity|split; [cbn; lia|reflexivity]]. apply (answers_bmk 16 8 _ a _ ltac:(cbn; lia) eq_refl). fold f.
      assert (HB : forall i, 0 <= i < 8 -> lane 8 (2 * i) x = lane 16 i x /\ lane 8 (2 * i + 1) x = 0).
      { intros i Hi. pose proof (lane_double 8 i x) as D. change (8 * 2) with 16 in D. specialize (D ltac:(lia) ltac:(lia)). pose proof (lane_range 8 (2 * i) x ltac:(lia)). pose proof (lane_range 8 (2 * i + 1) x ltac:(lia)). change (2 ^ 8) with 256 in *.
        assert (lane 16 i x < 256) by (assert (C : i = 0 \/ i = 1 \/ i = 2 \/ i = 3 \/ i = 4 \/ i = 5 \/ i = 6 \/ i = 7) by lia; destruct C as [-> |[-> |[-> |[-> |[-> |[-> |[-> | ->]]]]]]]; lia). lia. }
      assert (SL : forall i, 0 <= i < 4 -> lane 32 i (vec_sum4s false 8 x 0) = lane 16 (2 * i) x + lane 16 (2 * i + 1) x).
      { intros i Hi. rewrite sum4s_lane by lia. destruct (HB (2 * i) ltac:(lia)) as [Y0 Y1]. destruct (HB (2 * i + 1) ltac:(lia)) as [Y2 Y3].
        replace (2 * (2 * i)) with (4 * i) in * by lia. replace (2 * (2 * i + 1) + 1) with (4 * i + 3) in * by lia. replace (2 * (2 * i + 1)) with (4 * i + 2) in * by lia. lia. }
      pose proof (SL 0 ltac:(lia)) as T0. pose proof (SL 1 ltac:(lia)) as T1. pose proof (SL 2 ltac:(lia)) as T2. pose proof (SL 3 ltac:(lia)) as T3.
      change (2 * 0) with 0 in T0. change (0 + 1) with 1 in T0. change (2 * 1) with 2 in T1. change (2 + 1) with 3 in T1. change (2 * 2) with 4 in T2. change (4 + 1) with 5 in T2. change (2 * 3) with 6 in T3. change (6 + 1) with 7 in T3.
      apply sums_lane; [|lia|change (2 ^ 16) with 65536; lia].
      intros i Hi. change (2 ^ 16) with 65536. assert (C : i = 0 \/ i = 1 \/ i = 2 \/ i = 3) by lia. destruct C as [-> |[-> |[-> | ->]]]; lia. }
    destruct (use_msa A) eqn:E4; [|exfalso; apply none_left with A; auto].
    rewrite bind2, E. cbn [bind]. cbv zeta. set (y := msa_hadd false 32 (msa_hadd false 16 x x) (msa_hadd false 16 x x)). assert (Hy : reg 128 y) by (apply pack_reg; reflexivity).
    assert (N0 : lane 64 0 y = lane 16 0 x + lane 16 1 x + lane 16 2 x + lane 16 3 x).
    { unfold y. rewrite (hadd_lane 32) by lt. rewrite !(hadd_lane 16) by lt. change (2 * (2 * 0)) with 0. change (0 + 1) with 1. change (2 * (2 * 0 + 1)) with 2. change (2 + 1) with 3. lia. }
    assert (N1 : lane 64 1 y = lane 16 4 x + lane 16 5 x + lane 16 6 x + lane 16 7 x).
    { unfold y. rewrite (hadd_lane 32) by lt. rewrite !(hadd_lane 16) by lt. change (2 * (2 * 1)) with 4. change (4 + 1) with 5. change (2 * (2 * 1 + 1)) with 6. change (6 + 1) with 7. lia. }
    pose proof (msa_fin I16 y _ _ (or_introl eq_refl) Hy N0 N1 ltac:(lia) ltac:(lia)) as FN. change (64 / eb I16) with 4 in FN. change (eb I16 =? 16) with true in FN. cbv iota in FN. rewrite FN.
    apply (answers_bmk 16 8 _ a _ ltac:(cbn; lia) eq_refl). fold f.
    set (h := Z.b2z (Z.testbit (lane 16 4 a) 4) + Z.b2z (Z.testbit (lane 16 5 a) 5) * 2 + Z.b2z (Z.testbit (lane 16 6 a) 6) * 4 + Z.b2z (Z.testbit (lane 16 7 a) 7) * 8).
    replace (lane 16 4 x + lane 16 5 x + lane 16 6 x + lane 16 7 x) with (h * 2 ^ 4) by (unfold h; change (2 ^ 4) with 16; lia).
    rewrite lor_parts by (unfold h; change (2 ^ 4) with 16; lia). unfold h. change (2 ^ 4) with 16. lia.
  Qed.
  (** ---------- 32 bits ---------- *)
  Lemma any32_ok a : reg 128 a -> answers 32 4 (i_extract_bits_any32 A fp a) a.
  Proof.
    intros Ha. unfold i_extract_bits_any32. apply answers_wrap; [lia|].
    destruct (use_null A) eqn:E0.
    { rewrite (null_bits_ext 8 3 _ (fun i => lane 32 i a)) by (intros; apply land1_wrap). apply (answers_null 32 4); try lia; reflexivity. }
    destruct (use_sse2 A) eqn:E1; [apply (answers_km 32 128); reflexivity|].
    destruct (masked A HV W32 4 a ltac:(cbn; lia) (Nat.lt_0_succ 3) Ha) as (x & E & Hx & M). cbn [wb] in M. change (128 / 32) with 4 in M.
    assert (M' : forall i, 0 <= i < 4 -> lane 32 i x = Z.b2z (Z.testbit (lane 32 i a) i) * 2 ^ i) by (intros i Hi; rewrite M by lia; rewrite Z.mod_small by lia; reflexivity).
    set (f := fun i => Z.testbit (lane 32 i a) i) in *.
    pose proof (M' 0 ltac:(lia)) as X0. pose proof (M' 1 ltac:(lia)) as X1. pose proof (M' 2 ltac:(lia)) as X2. pose proof (M' 3 ltac:(lia)) as X3.
    pose proof (bmk4 f) as BM. unfold f in BM. fold f in BM. change (2 ^ 0) with 1 in *. change (2 ^ 1) with 2 in *. change (2 ^ 2) with 4 in *. change (2 ^ 3) with 8 in *.
    pose proof (b2z_range (Z.testbit (lane 32 0 a) 0)). pose proof (b2z_range (Z.testbit (lane 32 1 a) 1)). pose proof (b2z_range (Z.testbit (lane 32 2 a) 2)). pose proof (b2z_range (Z.testbit (lane 32 3 a) 3)).
    destruct (use_neon A) eqn:E2.
    { rewrite bind2, E. cbn [bind]. apply (answers_bmk 32 4 _ a _ ltac:(cbn; lia) eq_refl). fold f. apply neon_low; [|lia].
      rewrite (paddl_lane 32 _ 0), (paddl_lane 32 _ 1) by lt. change (2 * 0) with 0. change (0 + 1) with 1. change (2 * 1) with 2. change (2 + 1) with 3. lia. }
    destruct (use_altivec A) eqn:E3.
    { rewrite bind2, E. cbn [bind]. rewrite (ext_l A fp HV Hfp); [|reflexivity|apply pack_reg; reflexivity|split; [cbn; lia|reflexivity]]. apply (answers_bmk 32 4 _ a _ ltac:(cbn; lia) eq_refl). fold f.
      apply sums_lane; [|lia|change (2 ^ 16) with 65536; lia].
      intros i Hi. change (2 ^ 16) with 65536. assert (C : i = 0 \/ i = 1 \/ i = 2 \/ i = 3) by lia. destruct C as [-> |[-> |[-> | ->]]]; lia. }
    destruct (use_msa A) eqn:E4; [|exfalso; apply none_left with A; auto].
    rewrite bind2, E. cbn [bind]. cbv zeta. set (y := msa_hadd false 32 x x). assert (Hy : reg 128 y) by (apply pack_reg; reflexivity).
    assert (N0 : lane 64 0 y = lane 32 0 x + lane 32 1 x) by (unfold y; rewrite (hadd_lane 32) by lt; reflexivity).
    assert (N1 : lane 64 1 y = lane 32 2 x + lane 32 3 x) by (unfold y; rewrite (hadd_lane 32) by lt; reflexivity).
    pose proof (msa_fin I32 y _ _ (or_intror eq_refl) Hy N0 N1 ltac:(lia) ltac:(lia)) as FN. change (64 / eb I32) with 2 in FN. change (eb I32 =? 16) with false in FN. cbv iota in FN. rewrite FN.
    apply (answers_bmk 32 4 _ a _ ltac:(cbn; lia) eq_refl). fold f.
    set (h := Z.b2z (Z.testbit (lane 32 2 a) 2) + Z.b2z (Z.testbit (lane 32 3 a) 3) * 2).
    replace (lane 32 2 x + lane 32 3 x) with (h * 2 ^ 2) by (unfold h; change (2 ^ 2) with 4; lia).
    rewrite lor_parts by (unfold h; change (2 ^ 2) with 4; lia). unfold h. change (2 ^ 2) with 4. lia.
  Qed.
  (** ---------- 64 bits ---------- *)
  Lemma masked64 a : reg 128 a -> exists x, (let* mask := i_make_const A W32 R128 [1; 0; 2; 0] 0 in i_bit_and A W32 R128 a mask) = Ok x /\ reg 128 x /\
    lane 32 0 x = Z.b2z (Z.testbit (lane 64 0 a) 0) /\ lane 32 1 x = 0 /\ lane 32 2 x = Z.b2z (Z.testbit (lane 64 1 a) 1) * 2 /\ lane 32 3 x = 0.
  Proof.
    intros Ha. rewrite i_make_const_ok by (auto; try reflexivity; cbn; lia). cbn [bind rbits wb]. set (m := pack 32 128 (fun k => cval_at [1; 0; 2; 0] (0 + k))).
    assert (Hp : reg 128 m) by (apply pack_reg; reflexivity). rewrite i_bit_and_ok by (auto; reflexivity). eexists. split; [reflexivity|]. split; [apply land_reg; auto; lia|].
    assert (L : forall i, 0 <= i < 4 -> lane 32 i m = wrap 32 (cval_at [1; 0; 2; 0] (0 + i))) by (intros i Hi; apply lane_pack; [reflexivity|exact Hi]).
    rewrite !lane_land by lia. rewrite !L by lia. change (wrap 32 (cval_at [1; 0; 2; 0] (0 + 0))) with (2 ^ 0). change (wrap 32 (cval_at [1; 0; 2; 0] (0 + 1))) with 0. change (wrap 32 (cval_at [1; 0; 2; 0] (0 + 2))) with (2 ^ 1). change (wrap 32 (cval_at [1; 0; 2; 0] (0 + 3))) with 0.
    rewrite !Z.land_0_r, !land_pow2 by lia. pose proof (UnzipP.lane_lo 32 0 a) as L0. pose proof (UnzipP.lane_lo 32 1 a) as L1. change (2 * 32) with 64 in *. change (2 * 0) with 0 in *. change (2 * 1) with 2 in *.
    rewrite <- L0, <- L1 by lia. rewrite !testbit_wrap by lia. change (0 <? 32) with true. change (1 <? 32) with true. cbn [andb]. change (2 ^ 0) with 1. change (2 ^ 1) with 2. rewrite Z.mul_1_r. auto.
  Qed.
  Lemma any64_ok a : reg 128 a -> answers 64 2 (i_extract_bits_any64 A fp a) a.
  Proof.
    intros Ha. unfold i_extract_bits_any64. apply answers_wrap; [lia|].
    destruct (scalar64 A) eqn:E0.
    { rewrite (null_bits_ext 8 1 _ (fun i => lane 64 i a)) by (intros; apply land1_wrap). apply (answers_null 64 2); try lia; reflexivity. }
    assert (E00 : use_null A = false) by (unfold scalar64 in E0; apply Bool.orb_false_iff in E0; apply E0).
    destruct (use_sse2 A) eqn:E1; [apply (answers_km 64 128); reflexivity|].
    pose proof (bmk2 (fun i => Z.testbit (lane 64 i a) i)) as BM. cbv beta in BM.
    pose proof (b2z_range (Z.testbit (lane 64 0 a) 0)). pose proof (b2z_range (Z.testbit (lane 64 1 a) 1)).
    destruct (use_neon A) eqn:E2.
    { destruct (masked A HV W64 2 a ltac:(cbn; lia) (Nat.lt_0_succ 1) Ha) as (x & E & Hx & M). cbn [wb] in M. change (128 / 64) with 2 in M. change (one_bits 2) with [1; 2] in E.
      rewrite bind2, E. cbn [bind]. apply (answers_bmk 64 2 _ a _ ltac:(cbn; lia) eq_refl). apply neon_low; [|lia]. rewrite !M by lia. change (0 mod 2) with 0. change (1 mod 2) with 1. change (2 ^ 0) with 1. change (2 ^ 1) with 2. lia. }
    destruct (masked64 a Ha) as (x & E & Hx & X0 & X1 & X2 & X3).
    destruct (use_altivec A) eqn:E3.
    { rewrite bind2, E. cbn [bind]. rewrite (ext_l A fp HV Hfp); [|reflexivity|apply pack_reg; reflexivity|split; [cbn; lia|reflexivity]]. apply (answers_bmk 64 2 _ a _ ltac:(cbn; lia) eq_refl).
      apply sums_lane; [|lia|change (2 ^ 16) with 65536; lia].
      intros i Hi. change (2 ^ 16) with 65536. assert (C : i = 0 \/ i = 1 \/ i = 2 \/ i = 3) by lia. destruct C as [-> |[-> |[-> | ->]]]; lia. }
    destruct (use_msa A) eqn:E4; [|exfalso; apply none_left with A; auto].
    rewrite bind2, E. cbn [bind]. cbv zeta. set (y := msa_hadd false 32 x x). assert (Hy : reg 128 y) by (apply pack_reg; reflexivity).
    assert (N0 : lane 64 0 y = lane 32 0 x + lane 32 1 x) by (unfold y; rewrite (hadd_lane 32) by lt; reflexivity).
    assert (N1 : lane 64 1 y = lane 32 2 x + lane 32 3 x) by (unfold y; rewrite (hadd_lane 32) by lt; reflexivity).
    pose proof (msa_fin I32 y _ _ (or_intror eq_refl) Hy N0 N1 ltac:(lia) ltac:(lia)) as FN. change (64 / eb I32) with 2 in FN. change (eb I32 =? 16) with false in FN. cbv iota in FN. rewrite FN.
    apply (answers_bmk 64 2 _ a _ ltac:(cbn; lia) eq_refl).
    replace (lane 32 2 x + lane 32 3 x) with (Z.b2z (Z.testbit (lane 64 1 a) 1) * 2 ^ 1) by (change (2 ^ 1) with 2; lia).
    rewrite lor_parts by (change (2 ^ 1) with 2; lia). change (2 ^ 1) with 2. lia.
  Qed.
End L.
