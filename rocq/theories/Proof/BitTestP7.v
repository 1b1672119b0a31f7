(** extract_bits, the API *)
From Verif Require Import Spec.BitTest Model.BitTest Proof.CppLemmas Proof.BitwiseP Proof.MakeConstP Proof.MoveP Proof.UnzipP Proof.ExtractP Proof.ExtractP2 Proof.ShiftP Proof.ArithP
  Proof.PopcntP Proof.ReduceP Proof.ReduceP6 Proof.ReduceMulP Proof.BitTestP Proof.BitTestP2 Proof.BitTestP3 Proof.BitTestP4 Proof.BitTestP5 Proof.BitTestP6.

Definition answersV (w T : Z) (m : res Z) (l : list Z) : Prop :=
  exists r p, m = Ok r /\ (forall i, 0 <= i < T / w -> 0 <= p i < w) /\ bits_of (T / w) (fun i => Z.testbit (lane_no l i) (p i)) r.
Lemma lane_no1 w s a i : wok w (rbits s) = true -> 0 <= i < rbits s / w -> lane_no (lanes w s [a]) i = lane w i a.
Proof. intros HW Hi. unfold lane_no. rewrite nth_lanes by (try apply Hi; exact HW). set (n := rbits s / w) in *. rewrite Z.div_small, Z.mod_small by lia. reflexivity. Qed.
Lemma lane_no2 w s a b i : wok w (rbits s) = true -> 0 <= i < 2 * (rbits s / w) -> lane_no (lanes w s [a; b]) i = if i <? rbits s / w then lane w i a else lane w (i - rbits s / w) b.
Proof.
  intros HW Hi. unfold lane_no. rewrite nth_lanes by (try apply Hi; exact HW). set (n := rbits s / w) in *. destruct (Z.ltb_spec i n).
  - rewrite Z.div_small, Z.mod_small by lia. reflexivity.
  - replace (i / n) with 1 by (apply (Z.div_unique i n 1 (i - n)); lia). replace (i mod n) with (i - n) by (apply (Z.mod_unique i n 1 (i - n)); lia). reflexivity.
Qed.
Lemma answers_one w s m a : wok w (rbits s) = true -> answers w (rbits s / w) m a -> answersV w (rbits s) m (lanes w s [a]).
Proof.
  intros HW (r & p & E & Hp & B). exists r, p. split; auto. split; auto. eapply bits_of_ext; [|exact B]. intros i Hi. cbv beta. rewrite lane_no1 by auto. reflexivity.
Qed.
Lemma answers_two w t k n lo hi a b : wok w 128 = true -> k = 128 / w ->
  (t = c_u16 /\ k = 16 /\ n = 32) \/ (t = c_u8 /\ (k = 8 \/ k = 4 \/ k = 2) /\ 2 * k <= n <= 16 /\ 8 <= n) ->
  answers w (128 / w) lo a -> answers w (128 / w) hi b -> answersV w 256 (two_parts t k n lo hi) (lanes w R128 [a; b]).
Proof.
  intros HW -> Hk (x & p & -> & Hp & Bx) (y & q & -> & Hq & By). destruct (wok_spec _ _ HW) as (Hw & _ & HE & _). set (k := 128 / w) in *.
  assert (E2 : 256 / w = 2 * k) by (symmetry; apply (Z.div_unique 256 w (2 * k) 0); lia).
  exists (x + y * 2 ^ k), (fun i => if i <? k then p i else q (i - k)). split; [apply two_parts_ok; auto; [apply Bx|apply By]|]. rewrite E2. split.
  - intros i Hi. destruct (Z.ltb_spec i k); [apply Hp|apply Hq]; clearbody k; lia.
  - eapply bits_of_ext; [|apply (bits_of_pair k _ _ x y ltac:(lia) Bx By)]. intros i Hi. cbv beta. rewrite lane_no2 by (auto; exact Hi). change (rbits R128 / w) with k. destruct (i <? k); reflexivity.
Qed.
Section L.
  Variables (A : arch) (fp : Z).
  Hypotheses (HV : valid_arch A = true) (Hfp : fp mod 64 = 0).
  Lemma any128_ok w a : reg 128 a -> answers (wb w) (128 / wb w) (any128 A fp w a) a.
  Proof.
    intros Ha. destruct w; cbn [wb any128].
    - destruct (any8_ok A fp HV Hfp a Ha) as (r & E & B). exists r, (bpos A). split; [exact E|]. split; [|exact B]. intros i Hi. unfold bpos. destruct (use_null A); [lia|]. destruct (use_sse2 A); [lia|]. apply Z.mod_pos_bound. lia.
    - apply any16_ok; auto.
    - apply any32_ok; auto.
    - apply any64_ok; auto.
  Qed.
  Lemma km_range w R p : wok w R = true -> 0 <= kmask w R p < 2 ^ (R / w).
  Proof. intros HW. destruct (wok_spec _ _ HW) as (_ & _ & _ & Hn). unfold kmask. pose proof (mk_range 1 (nl w R) (fun i => Z.b2z (p i)) ltac:(lia)) as M. rewrite Z.mul_1_l, Hn in M. exact M. Qed.
  Lemma km_wrap n w R p : wok w R = true -> 0 <= R / w <= n -> wrap n (kmask w R p) = kmask w R p.
  Proof. intros HW Hn. apply wrap_small. pose proof (km_range w R p HW). split; [lia|]. eapply Z.lt_le_trans; [apply H|apply Z.pow_le_mono_r; lia]. Qed.
  Lemma unzip256 a i : 0 <= i < 16 -> lane 8 i (mm_extract128 0 (mm_permute4x64 256 0x08 (lsh 8 256 16 (p_unzip_lo 16) [a; 0]))) = lane 8 (2 * i) a.
  Proof.
    intros Hi. set (u := lsh 8 256 16 (p_unzip_lo 16) [a; 0]).
    assert (U0 : forall k, 0 <= k < 8 -> lane 8 k u = lane 8 (2 * k) a).
    { intros k Hk. unfold u. pose proof (lane_lsh 8 256 16 (p_unzip_lo 16) [a; 0] 0 k eq_refl ltac:(lia) ltac:(lt)) as L. change (16 * 0 + k) with k in L. rewrite L. unfold p_unzip_lo. change (16 / 2) with 8. destruct (Z.ltb_spec k 8); [|lia]. reflexivity. }
    assert (U1 : forall k, 0 <= k < 8 -> lane 8 (16 + k) u = lane 8 (16 + 2 * k) a).
    { intros k Hk. unfold u. pose proof (lane_lsh 8 256 16 (p_unzip_lo 16) [a; 0] 1 k eq_refl ltac:(lia) ltac:(lt)) as L. change (16 * 1 + k) with (16 + k) in L. rewrite L. unfold p_unzip_lo. change (16 / 2) with 8. destruct (Z.ltb_spec k 8); [|lia]. reflexivity. }
    unfold mm_extract128. pose proof (lane_lane 8 16 0 i (mm_permute4x64 256 8 u)) as L. change (8 * 16) with 128 in L. change (0 * 16 + i) with i in L. rewrite L by lia.
    rewrite (lane_sub 8 8 i) by lia. change (8 * 8) with 64.
    assert (Q0 : lane 64 0 (mm_permute4x64 256 8 u) = lane 64 0 u) by (unfold mm_permute4x64; etransitivity; [apply (lane_lsh 64 256 4 _ [u] 0 0); lt|reflexivity]).
    assert (Q1 : lane 64 1 (mm_permute4x64 256 8 u) = lane 64 2 u) by (unfold mm_permute4x64; etransitivity; [apply (lane_lsh 64 256 4 _ [u] 0 1); lt|reflexivity]).
    destruct (Z_lt_dec i 8).
    - rewrite Z.div_small, Z.mod_small by lia. rewrite Q0. pose proof (lane_lane 8 8 0 i u) as M. change (8 * 8) with 64 in M. rewrite M by lia. apply U0. lia.
    - replace (i / 8) with 1 by zl. replace (i mod 8) with (i - 8) by zl. rewrite Q1. pose proof (lane_lane 8 8 2 (i - 8) u) as M. change (8 * 8) with 64 in M. rewrite M by lia. change (2 * 8) with 16. rewrite U1 by lia. f_equal. lia.
  Qed.
  Lemma av256 w : use_avx2 A = true -> avail_int A (wb w) R256 = true. Proof. intros H. exact H. Qed.
  Lemma any256_one w a : use_avx2 A = true -> reg 256 a -> answers (wb w) (256 / wb w) (any256 A fp w [a]) a.
  Proof.
    intros H2 Ha. unfold any256. rewrite H2. destruct w; cbn [wb].
    - unfold mm_movemask. rewrite km_wrap by (try reflexivity; change (256 / 8) with 32; lia). apply (answers_km 8 256); reflexivity.
    - destruct (use_avx512bw A); [apply (answers_km 16 256); reflexivity|]. rewrite i_unzip_lo_ok by (auto; try exact H2; lt). cbn [bind rbits]. change (eb I8) with 8. change (en I8) with 16.
      unfold mm_movemask. rewrite km_wrap by (try reflexivity; change (128 / 8) with 16; lia). eexists _, (fun _ => 7). split; [reflexivity|]. split; [intros; lia|]. change (256 / 16) with 16. split; [apply km_range; reflexivity|].
      intros i Hi. rewrite MaskP.testbit_kmask by (try reflexivity; exact Hi). rewrite unzip256 by auto. pose proof (UnzipP.lane_lo 8 i a) as LL. change (2 * 8) with 16 in LL. rewrite <- LL by lia. rewrite testbit_wrap by lia. reflexivity.
    - destruct (use_avx512dq A); [|unfold mm_movemask; rewrite km_wrap by (try reflexivity; change (256 / 32) with 8; lia)]; apply (answers_km 32 256); reflexivity.
    - destruct (use_avx512dq A); [|unfold mm_movemask; rewrite km_wrap by (try reflexivity; change (256 / 64) with 4; lia)]; apply (answers_km 64 256); reflexivity.
  Qed.
  Lemma any256_two w lo hi : use_avx2 A = false -> reg 128 lo -> reg 128 hi -> answersV (wb w) 256 (any256 A fp w [lo; hi]) (lanes (wb w) R128 [lo; hi]).
  Proof.
    intros H2 Hl Hh. unfold any256. rewrite H2. pose proof (any128_ok w lo Hl) as Al. pose proof (any128_ok w hi Hh) as Ah. destruct w; cbn [wb] in *.
    - apply answers_two; auto.
    - apply answers_two; auto. right. split; [reflexivity|]. split; [auto|]. lia.
    - apply answers_two; auto. right. split; [reflexivity|]. split; [auto|]. lia.
    - destruct (scalar64 A) eqn:E; [|apply answers_two; auto; right; split; [reflexivity|]; split; [auto|]; lia].
      eexists _, (fun i => i). split; [reflexivity|]. split; [change (256 / 64) with 4; intros; lia|]. change (256 / 64) with 4.
      assert (X : wrap 8 (Z.lor (Z.lor (Z.lor (Z.land (lane 64 0 lo) 1) (Z.land (lane 64 1 lo) 2)) (Z.land (lane 64 0 hi) 4)) (Z.land (lane 64 1 hi) 8))
        = bmk 4 (fun i => Z.testbit (lane_no (lanes 64 R128 [lo; hi]) i) i)).
      { pose proof (land_pow2 (lane 64 0 lo) 0 ltac:(lia)) as P0. pose proof (land_pow2 (lane 64 1 lo) 1 ltac:(lia)) as P1. pose proof (land_pow2 (lane 64 0 hi) 2 ltac:(lia)) as P2. pose proof (land_pow2 (lane 64 1 hi) 3 ltac:(lia)) as P3.
        change (2 ^ 0) with 1 in P0. change (2 ^ 1) with 2 in P1. change (2 ^ 2) with 4 in P2. change (2 ^ 3) with 8 in P3. rewrite P0, P1, P2, P3. clear P0 P1 P2 P3. rewrite bmk4.
        assert (L : forall i, 0 <= i < 4 -> lane_no (lanes 64 R128 [lo; hi]) i = if i <? 2 then lane 64 i lo else lane 64 (i - 2) hi) by (intros i Hi; rewrite lane_no2 by (try reflexivity; exact Hi); reflexivity).
        rewrite !L by lia. cbn [Z.ltb Z.compare Pos.compare Pos.compare_cont]. change (2 - 2) with 0. change (3 - 2) with 1.
        destruct (Z.testbit (lane 64 0 lo) 0), (Z.testbit (lane 64 1 lo) 1), (Z.testbit (lane 64 0 hi) 2), (Z.testbit (lane 64 1 hi) 3); reflexivity. }
      rewrite X. apply (bmk_bits 4).
  Qed.
  Lemma extract_any_ok w T va : T = 128 \/ T = 256 -> wfv (vreg A (wb w) T) va -> Z.of_nat (length va) * rbits (vreg A (wb w) T) = T ->
    answersV (wb w) T (extract_bits_any A fp w T va) (lanes (wb w) (vreg A (wb w) T) va).
  Proof.
    intros HT Hva HL. unfold extract_bits_any. destruct HT as [-> | ->].
    - rewrite reg128_one in *. change (128 =? 128) with true. cbn [rbits] in HL. destruct va as [|a [|b va]]; cbn [length] in HL; try lia. inversion Hva; subst.
      apply (answers_one (wb w) R128); [apply (wok_lib w R128)|]. apply any128_ok; auto.
    - rewrite (reg256 A HV) in *. change (256 =? 128) with false. change (256 =? 256) with true. cbv iota. destruct (use_avx2 A) eqn:H2; cbn [rbits] in HL.
      + destruct va as [|a [|b va]]; cbn [length] in HL; try lia. inversion Hva; subst. apply (answers_one (wb w) R256); [apply (wok_lib w R256)|]. apply any256_one; auto.
      + destruct va as [|a [|b [|c va]]]; cbn [length] in HL; try lia. inversion Hva as [|? ? Ha Hva']; subst. inversion Hva'; subst. apply any256_two; auto.
  Qed.
  (** ---------- a chosen bit ---------- *)
  Lemma shifted_bit s id a i : 0 <= id < 8 -> 0 <= i < rbits s / 8 -> Z.testbit (lane 8 i (shl_v 16 (rbits s) (7 - id) a)) 7 = Z.testbit (lane 8 i a) id.
  Proof.
    intros Hid Hi. unfold shl_v. assert (H16 : rbits s / 8 = 2 * (rbits s / 16)) by (destruct s; reflexivity). rewrite (lane_sub 8 2 i), (lane_sub 8 2 i a) by lia. change (8 * 2) with 16.
    assert (0 <= i / 2 < rbits s / 16) by zl. assert (0 <= i mod 2 < 2) by zl. rewrite lane_v1 by (auto; apply (wok_lib W16 s)). rewrite !testbit_lane by lia. destruct (Z.ltb_spec id 8); [|lia]. cbn [andb Z.ltb Z.compare Pos.compare Pos.compare_cont].
    rewrite testbit_wrap by lia. destruct (Z.ltb_spec (8 * (i mod 2) + 7) 16); [|lia]. cbn [andb]. rewrite Z.shiftl_spec by lia. rewrite testbit_lane by lia. replace (8 * (i mod 2) + 7 - (7 - id)) with (8 * (i mod 2) + id) by lia. reflexivity.
  Qed.
  Lemma cv_steps id k : cval_at (steps8 id) k = k mod 8 - id.
  Proof.
    unfold cval_at, steps8. change (Z.of_nat (length (map (fun k => k - id) (zrange 8)))) with 8. pose proof (Z.mod_pos_bound k 8 ltac:(lia)) as B. set (j := k mod 8) in *. clearbody j.
    assert (C : j = 0 \/ j = 1 \/ j = 2 \/ j = 3 \/ j = 4 \/ j = 5 \/ j = 6 \/ j = 7) by lia. destruct C as [-> |[-> |[-> |[-> |[-> |[-> |[-> | ->]]]]]]]; reflexivity.
  Qed.
  Lemma high8 x i : 0 <= x < 256 -> 8 <= i -> Z.testbit x i = false. Proof. intros Hx Hi. apply (high_zero 8); lia. Qed.
  Lemma extract_bits_ok1 id a : 0 <= id < 8 -> reg 128 a -> exists r, i_extract_bits A fp id a = Ok r /\ bits_of 16 (fun i => Z.testbit (lane 8 i a) id) r.
  Proof.
    intros Hid Ha. unfold i_extract_bits. destruct (use_null A) eqn:E0.
    { eexists. split; [reflexivity|]. eapply bits_of_ext; [|apply (null_bits_ok 16 15 (fun i => Z.shiftr (lane 8 i a) id)); lia]. intros i Hi. cbv beta. rewrite Z.shiftr_spec by lia. f_equal. }
    assert (FIN : forall b, reg 128 b -> (forall i, 0 <= i < 16 -> Z.testbit (lane 8 i b) (bpos A i) = Z.testbit (lane 8 i a) id) ->
      exists r, i_extract_bits_any8 A fp b = Ok r /\ bits_of 16 (fun i => Z.testbit (lane 8 i a) id) r).
    { intros b Hb HE. destruct (any8_ok A fp HV Hfp b Hb) as (r & E & B). exists r. split; [exact E|]. eapply bits_of_ext; [|exact B]. intros i Hi. apply HE; auto. }
    unfold bpos in FIN. rewrite E0 in FIN. destruct (use_sse2 A) eqn:E1.
    { unfold shift_l_t. destruct (Z.eqb_spec (7 - id) 0) as [E|N].
      - cbn [bind]. apply FIN; auto. intros i Hi. replace id with 7 by lia. reflexivity.
      - cbn [vec_impl1]. rewrite i_shift_l_t_ok by (auto; try reflexivity; change (wb W16) with 16; lia). cbn [bind wb rbits]. apply FIN; [apply v1_reg; reflexivity|]. intros i Hi. apply (shifted_bit R128); auto. }
    set (m := pack 8 128 (fun k => cval_at (steps8 id) (0 + k))). assert (Hm : reg 128 m) by (apply pack_reg; reflexivity).
    assert (HC : i_make_const A W8 R128 (steps8 id) 0 = Ok m) by (apply i_make_const_ok; auto; apply (Nat.lt_0_succ 7)). rewrite !HC. cbn [bind].
    assert (LM : forall i, 0 <= i < 16 -> lane 8 i m = wrap 8 (i mod 8 - id)) by (intros i Hi; unfold m; rewrite lane_pack by (try reflexivity; exact Hi); rewrite Z.add_0_l, cv_steps; reflexivity).
    destruct (use_neon A) eqn:E2.
    { apply FIN; [apply v2_reg; reflexivity|]. intros i Hi. unfold vshlq_u. rewrite lane_v2 by (try reflexivity; exact Hi). cbv zeta. rewrite LM by lia. pose proof (Z.mod_pos_bound i 8 ltac:(lia)) as B.
      rewrite sgn_wrap by lia. rewrite sgn_id by (try lia; change (2 ^ (8 - 1)) with 128; lia). rewrite testbit_wrap by lia. destruct (Z.ltb_spec (i mod 8) 8); [|lia]. cbn [andb].
      destruct (Z.leb_spec 0 (i mod 8 - id)); [rewrite Z.shiftl_spec by lia|rewrite Z.shiftr_spec by lia]; f_equal; lia. }
    assert (M8 : forall i, 0 <= i < 16 -> lane 8 i m mod 8 = if id <=? i mod 8 then i mod 8 - id else i mod 8 - id + 8).
    { intros i Hi. rewrite LM by lia. pose proof (Z.mod_pos_bound i 8 ltac:(lia)) as B. unfold wrap. change (2 ^ 8) with 256. destruct (Z.leb_spec id (i mod 8)); set (j := i mod 8) in *; clearbody j; zl. }
    destruct (use_altivec A) eqn:E3.
    { apply FIN; [apply v2_reg; reflexivity|]. intros i Hi. unfold vec_rl. rewrite lane_v2 by (try reflexivity; exact Hi). rewrite M8 by lia. pose proof (Z.mod_pos_bound i 8 ltac:(lia)) as B. pose proof (lane_range 8 i a ltac:(lia)) as RA. change (2 ^ 8) with 256 in RA.
      rewrite testbit_wrap by lia. destruct (Z.ltb_spec (i mod 8) 8); [|lia]. cbn [andb]. rewrite Z.lor_spec. destruct (Z.leb_spec id (i mod 8)).
      - rewrite Z.shiftl_spec, Z.shiftr_spec by lia. rewrite (high8 (lane 8 i a) (i mod 8 + (8 - (i mod 8 - id)))) by (auto; lia). rewrite Bool.orb_false_r. f_equal. lia.
      - rewrite Z.shiftl_spec, Z.shiftr_spec by lia. rewrite (Z.testbit_neg_r (lane 8 i a)) by lia. cbn [orb]. f_equal. lia. }
    destruct (use_msa A) eqn:E4; [|exfalso; apply none_left with A; auto].
    cbv zeta. rewrite i_sub_ok by (auto; reflexivity). cbn [bind rbits wb]. set (n := v2 8 128 Z.sub 0 m).
    assert (LN : forall i, 0 <= i < 16 -> lane 8 i n mod 8 = if i mod 8 <=? id then id - i mod 8 else id - i mod 8 + 8).
    { intros i Hi. unfold n. rewrite lane_v2 by (try reflexivity; exact Hi). rewrite lane_of_zero, LM by lia. pose proof (Z.mod_pos_bound i 8 ltac:(lia)) as B. unfold wrap. change (2 ^ 8) with 256. destruct (Z.leb_spec (i mod 8) id); set (j := i mod 8) in *; clearbody j; zl. }
    assert (RL : reg 128 (msa_sll 8 a m)) by (apply v2_reg; reflexivity). assert (RR : reg 128 (msa_srl 8 a n)) by (apply v2_reg; reflexivity).
    rewrite i_bit_or_ok by (auto; reflexivity). cbn [bind]. apply FIN; [apply lor_reg; auto; lia|]. intros i Hi. rewrite lane_lor by lia. unfold msa_sll, msa_srl. rewrite !lane_v2 by (try reflexivity; exact Hi). rewrite M8, LN by lia.
    pose proof (Z.mod_pos_bound i 8 ltac:(lia)) as B. pose proof (lane_range 8 i a ltac:(lia)) as RA. change (2 ^ 8) with 256 in RA. rewrite Z.lor_spec, !testbit_wrap by lia. destruct (Z.ltb_spec (i mod 8) 8); [|lia]. cbn [andb].
    destruct (Z.leb_spec id (i mod 8)), (Z.leb_spec (i mod 8) id); try lia; rewrite Z.shiftl_spec, Z.shiftr_spec by lia.
    - replace (i mod 8 - (i mod 8 - id)) with id by lia. replace (i mod 8 + (id - i mod 8)) with id by lia. apply Bool.orb_diag.
    - rewrite (high8 (lane 8 i a) (i mod 8 + (id - i mod 8 + 8))) by (auto; lia). rewrite Bool.orb_false_r. f_equal. lia.
    - rewrite (Z.testbit_neg_r (lane 8 i a)) by lia. cbn [orb]. f_equal. lia.
  Qed.
  Lemma extract_bits_T id T va : 0 <= id < 8 -> T = 128 \/ T = 256 -> wfv (vreg A 8 T) va -> Z.of_nat (length va) * rbits (vreg A 8 T) = T ->
    exists r, extract_bits_n A fp id T va = Ok r /\ bits_of (T / 8) (fun i => Z.testbit (lane_no (lanes 8 (vreg A 8 T) va) i) id) r.
  Proof.
    intros Hid HT Hva HL. unfold extract_bits_n. destruct HT as [-> | ->].
    - pose proof (reg128_one A W8) as E. cbn [wb] in E. rewrite E in *. change (128 =? 128) with true. cbn [rbits] in HL. destruct va as [|a [|b va]]; cbn [length] in HL; try lia. inversion Hva; subst.
      destruct (extract_bits_ok1 id a Hid ltac:(auto)) as (r & ER & B). exists r. split; [exact ER|]. eapply bits_of_ext; [|exact B]. intros i Hi. cbv beta. rewrite lane_no1 by (try reflexivity; exact Hi). reflexivity.
    - pose proof (reg256 A HV W8) as E. cbn [wb] in E. rewrite E in *. change (256 =? 128) with false. change (256 =? 256) with true. cbv iota. destruct (use_avx2 A) eqn:H2; cbn [rbits] in HL.
      + destruct va as [|a [|b va]]; cbn [length] in HL; try lia. inversion Hva as [|? ? Ha ?]; subst. cbn [rbits] in Ha.
        assert (F : forall b, reg 256 b -> (forall i, 0 <= i < 32 -> Z.testbit (lane 8 i b) 7 = Z.testbit (lane 8 i a) id) ->
          exists r, any256 A fp W8 [b] = Ok r /\ bits_of 32 (fun i => Z.testbit (lane_no (lanes 8 R256 [a]) i) id) r).
        { intros b Hb HE. unfold any256. rewrite H2. unfold mm_movemask. rewrite km_wrap by (try reflexivity; change (256 / 8) with 32; lia). eexists. split; [reflexivity|]. split; [apply km_range; reflexivity|].
          intros i Hi. rewrite MaskP.testbit_kmask by (try reflexivity; exact Hi). rewrite lane_no1 by (try reflexivity; exact Hi). apply HE; auto. }
        unfold shift_l_t. destruct (Z.eqb_spec (7 - id) 0) as [E7|N].
        * cbn [bind]. apply F; auto. intros i Hi. replace id with 7 by lia. reflexivity.
        * cbn [vec_impl1]. rewrite i_shift_l_t_ok by (auto; try exact H2; change (wb W16) with 16; lia). cbn [bind wb rbits]. apply F; [apply v1_reg; reflexivity|]. intros i Hi. apply (shifted_bit R256); auto.
      + destruct va as [|a [|b [|c va]]]; cbn [length] in HL; try lia. inversion Hva as [|? ? Ha Hva']; subst. inversion Hva'; subst. cbn [rbits] in *.
        destruct (extract_bits_ok1 id a Hid ltac:(auto)) as (x & -> & Bx). destruct (extract_bits_ok1 id b Hid ltac:(auto)) as (y & -> & By).
        exists (x + y * 2 ^ 16). split; [apply two_parts_ok; auto; [apply Bx|apply By]|].
        eapply bits_of_ext; [|apply (bits_of_pair 16 _ _ x y ltac:(lia) Bx By)]. intros i Hi. cbv beta. rewrite lane_no2 by (try reflexivity; exact Hi). change (rbits R128 / 8) with 16. destruct (i <? 16); reflexivity.
  Qed.
End L.
