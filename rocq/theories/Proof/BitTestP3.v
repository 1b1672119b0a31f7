(** extract_bits_any: the implementations for one register *)
From Verif Require Import Spec.BitTest Model.BitTest Proof.CppLemmas Proof.BitwiseP Proof.MakeConstP Proof.MoveP Proof.UnzipP Proof.ExtractP Proof.ExtractP2 Proof.ShiftP
  Proof.PopcntP Proof.ReduceP Proof.ReduceP6 Proof.ReduceMulP Proof.BitTestP Proof.BitTestP2.

Ltac lt := first [lia | reflexivity | (split; [lia | reflexivity])].
Lemma paddl_lane w a i : 0 < w -> wok (2 * w) 128 = true -> 0 <= i < 128 / (2 * w) ->
  lane (2 * w) i (vpaddlq_u w a) = lane w (2 * i) a + lane w (2 * i + 1) a.
Proof.
  intros Hw HW Hi. unfold vpaddlq_u. rewrite lane_pack by auto. apply wrap_small.
  pose proof (lane_range w (2 * i) a ltac:(lia)). pose proof (lane_range w (2 * i + 1) a ltac:(lia)).
  assert (2 ^ w + 2 ^ w <= 2 ^ (2 * w)) by (replace (2 * w) with (w + w) by lia; rewrite Z.pow_add_r by lia; assert (2 ^ 1 <= 2 ^ w) by (apply Z.pow_le_mono_r; lia); change (2 ^ 1) with 2 in *; nia). lia.
Qed.
Lemma hadd_lane w a i : 0 < w -> wok (2 * w) 128 = true -> 0 <= i < 128 / (2 * w) ->
  lane (2 * w) i (msa_hadd false w a a) = lane w (2 * i) a + lane w (2 * i + 1) a.
Proof. intros Hw HW Hi. rewrite <- paddl_lane by auto. unfold msa_hadd, vpaddlq_u, vlane. rewrite !lane_pack by auto. f_equal. lia. Qed.

(** a lane known to be one masked bit *)
Lemma cv_one_bits n k : 0 < n -> cval_at (one_bits n) k = 2 ^ (k mod n).
Proof.
  intros Hn. unfold cval_at, one_bits. assert (HL : Z.of_nat (length (map (fun i => 2 ^ i) (zrange n))) = n) by (unfold zrange; rewrite !map_length, seq_length; lia).
  rewrite HL. pose proof (Z.mod_pos_bound k n Hn). unfold zrange. rewrite map_map. rewrite (nth_indep _ 0 (2 ^ Z.of_nat 0)) by (rewrite map_length, seq_length; lia).
  rewrite (map_nth (fun x => 2 ^ Z.of_nat x)), seq_nth by lia. f_equal. lia.
Qed.
Section L.
  Variables (A : arch) (fp : Z).
  Hypotheses (HV : valid_arch A = true) (Hfp : fp mod 64 = 0).
  Local Notation F16 := (fp16 fp Hfp).
  Lemma masked w n a : 0 < n <= wb w -> (length (one_bits n) > 0)%nat -> reg 128 a ->
    exists x, (let* mask := i_make_const A w R128 (one_bits n) 0 in i_bit_and A w R128 a mask) = Ok x /\ reg 128 x /\
    forall i, 0 <= i < 128 / wb w -> lane (wb w) i x = Z.b2z (Z.testbit (lane (wb w) i a) (i mod n)) * 2 ^ (i mod n).
  Proof.
    intros Hn HL Ha. pose proof (wok_lib w R128) as HW. pose proof (wb_pos w) as Hw. cbn [rbits] in HW. rewrite i_make_const_ok by (auto; reflexivity). cbn [bind rbits].
    assert (Hp : reg 128 (pack (wb w) 128 (fun k => cval_at (one_bits n) (0 + k)))) by (apply pack_reg; auto).
    rewrite i_bit_and_ok by (auto; reflexivity). eexists. split; [reflexivity|]. split; [apply land_reg; auto; lia|].
    intros i Hi. rewrite lane_land by lia. rewrite lane_pack by auto. rewrite Z.add_0_l, cv_one_bits by lia. pose proof (Z.mod_pos_bound i n ltac:(lia)).
    rewrite wrap_small by (split; [lia|apply Z.pow_lt_mono_r; lia]). apply land_pow2. lia.
  Qed.
  Lemma bind2 {X Y W} (m : res X) (f : X -> res Y) (g : Y -> res W) : (let* x := m in let* y := f x in g y) = (let* y := (let* x := m in f x) in g y).
  Proof. destruct m; reflexivity. Qed.
End L.
  (** the eight masked bytes of half j *)
  Definition tb8 a j k := Z.testbit (lane 8 (8 * j + k) a) k.
  Ltac eight H j := 
    pose proof (H (8 * j) ltac:(lt)); pose proof (H (8 * j + 1) ltac:(lt)); pose proof (H (8 * j + 2) ltac:(lt)); pose proof (H (8 * j + 3) ltac:(lt));
    pose proof (H (8 * j + 4) ltac:(lt)); pose proof (H (8 * j + 5) ltac:(lt)); pose proof (H (8 * j + 6) ltac:(lt)); pose proof (H (8 * j + 7) ltac:(lt)).
  Definition m8 (a x : Z) : Prop := forall i, 0 <= i < 16 -> lane 8 i x = Z.b2z (Z.testbit (lane 8 i a) (i mod 8)) * 2 ^ (i mod 8).
  Lemma m8_at a x j k : m8 a x -> 0 <= j < 2 -> 0 <= k < 8 -> lane 8 (8 * j + k) x = Z.b2z (tb8 a j k) * 2 ^ k.
  Proof. intros H Hj Hk. rewrite H by lia. replace ((8 * j + k) mod 8) with k by zl. reflexivity. Qed.
  Lemma m8_sum a x j : m8 a x -> 0 <= j < 2 ->
    lane 8 (8 * j + 0) x + lane 8 (8 * j + 1) x + lane 8 (8 * j + 2) x + lane 8 (8 * j + 3) x + lane 8 (8 * j + 4) x + lane 8 (8 * j + 5) x + lane 8 (8 * j + 6) x + lane 8 (8 * j + 7) x
    = bmk 8 (tb8 a j).
  Proof. intros H Hj. rewrite !(m8_at a x j) by (auto; lia). rewrite bmk8. reflexivity. Qed.
  Lemma bits8 a f g : f = tb8 a 0 -> g = tb8 a 1 -> bits_of 16 (fun i => Z.testbit (lane 8 i a) (i mod 8)) (bmk 8 f + bmk 8 g * 256).
  Proof.
    intros -> ->. apply (bits_of_ext 16 (fun i => if i <? 8 then tb8 a 0 i else tb8 a 1 (i - 8))).
    - intros i Hi. unfold tb8. destruct (Z.ltb_spec i 8).
      + rewrite Z.mod_small by lia. reflexivity.
      + replace (i mod 8) with (i - 8) by zl. f_equal. f_equal. lia.
    - apply (bits_of_pair 8); [lia|apply (bmk_bits 8)|apply (bmk_bits 8)].
  Qed.
  Lemma neon_half x j : 0 <= j < 2 -> lane 64 j (vpaddlq_u 32 (vpaddlq_u 16 (vpaddlq_u 8 x))) =
    lane 8 (8 * j + 0) x + lane 8 (8 * j + 1) x + lane 8 (8 * j + 2) x + lane 8 (8 * j + 3) x + lane 8 (8 * j + 4) x + lane 8 (8 * j + 5) x + lane 8 (8 * j + 6) x + lane 8 (8 * j + 7) x.
  Proof.
    intros Hj. rewrite (paddl_lane 32) by (try lia; try reflexivity; change (128 / (2 * 32)) with 2; lia).
    rewrite !(paddl_lane 16) by (try lia; try reflexivity; change (128 / (2 * 16)) with 4; lia).
    rewrite !(paddl_lane 8) by (try lia; try reflexivity; change (128 / (2 * 8)) with 8; lia).
    replace (2 * (2 * (2 * j)) + 1) with (8 * j + 1) by lia. replace (2 * (2 * (2 * j) + 1) + 1) with (8 * j + 3) by lia. replace (2 * (2 * (2 * j + 1)) + 1) with (8 * j + 5) by lia. replace (2 * (2 * (2 * j + 1) + 1) + 1) with (8 * j + 7) by lia. replace (2 * (2 * (2 * j))) with (8 * j + 0) by lia. replace (2 * (2 * (2 * j) + 1)) with (8 * j + 2) by lia. replace (2 * (2 * (2 * j + 1))) with (8 * j + 4) by lia. replace (2 * (2 * (2 * j + 1) + 1)) with (8 * j + 6) by lia. lia.
  Qed.
  Lemma msa_half x j : 0 <= j < 2 -> lane 64 j (msa_hadd false 32 (msa_hadd false 16 (msa_hadd false 8 x x) (msa_hadd false 8 x x)) (msa_hadd false 16 (msa_hadd false 8 x x) (msa_hadd false 8 x x))) =
    lane 8 (8 * j + 0) x + lane 8 (8 * j + 1) x + lane 8 (8 * j + 2) x + lane 8 (8 * j + 3) x + lane 8 (8 * j + 4) x + lane 8 (8 * j + 5) x + lane 8 (8 * j + 6) x + lane 8 (8 * j + 7) x.
  Proof.
    intros Hj. rewrite (hadd_lane 32) by (try lia; try reflexivity; change (128 / (2 * 32)) with 2; lia).
    rewrite !(hadd_lane 16) by (try lia; try reflexivity; change (128 / (2 * 16)) with 4; lia).
    rewrite !(hadd_lane 8) by (try lia; try reflexivity; change (128 / (2 * 8)) with 8; lia).
    replace (2 * (2 * (2 * j)) + 1) with (8 * j + 1) by lia. replace (2 * (2 * (2 * j) + 1) + 1) with (8 * j + 3) by lia. replace (2 * (2 * (2 * j + 1)) + 1) with (8 * j + 5) by lia. replace (2 * (2 * (2 * j + 1) + 1) + 1) with (8 * j + 7) by lia. replace (2 * (2 * (2 * j))) with (8 * j + 0) by lia. replace (2 * (2 * (2 * j) + 1)) with (8 * j + 2) by lia. replace (2 * (2 * (2 * j + 1))) with (8 * j + 4) by lia. replace (2 * (2 * (2 * j + 1) + 1)) with (8 * j + 6) by lia. lia.
  Qed.
  (** byte k of a small 64-bit lane *)
  Lemma small_lane b j k x v : lane 64 j x = v -> 0 <= v < 2 ^ b -> 0 < b -> 0 <= j -> 0 <= k -> (k + 1) * b <= 64 -> 64 mod b = 0 ->
    lane b (64 / b * j + k) x = if k =? 0 then v else 0.
  Proof.
    intros E Hv Hb Hj Hk Hkb Hm. assert (HQ : 64 = b * (64 / b)) by (apply Z_div_exact_2; lia). set (q := 64 / b) in *. assert (0 < q) by nia. assert (k < q) by nia.
    rewrite (lane_sub b q) by (try lia; nia). replace ((q * j + k) / q) with j by (rewrite Z.mul_comm, Z.div_add_l, Z.div_small by lia; lia).
    replace ((q * j + k) mod q) with k by (rewrite Z.mul_comm, Z.add_comm, Z.mod_add, Z.mod_small by lia; lia). rewrite <- HQ, E.
    assert (HI : forall i, b <= i -> Z.testbit v i = false) by (intros i Hi; destruct (Z.eq_dec v 0) as [->|]; [apply Z.bits_0|]; apply Z.bits_above_log2; [lia|]; apply Z.log2_lt_pow2; [lia|]; eapply Z.lt_le_trans; [apply Hv|apply Z.pow_le_mono_r; lia]).
    assert (V : 0 <= (if k =? 0 then v else 0) < 2 ^ b) by (destruct (k =? 0); lia).
    apply (bits_ext b); [lia|apply lane_range; lia|exact V|]. intros i Hi. rewrite testbit_lane by lia. destruct (Z.ltb_spec i b); [|lia]. cbn [andb].
    destruct (Z.eqb_spec k 0) as [->|N]; [f_equal; lia|]. rewrite Z.bits_0. apply HI. nia.
  Qed.
