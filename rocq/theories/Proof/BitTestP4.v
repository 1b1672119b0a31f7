(** extract_bits_any: the implementations for one register, continued *)
From Verif Require Import Spec.BitTest Model.BitTest Proof.CppLemmas Proof.BitwiseP Proof.MakeConstP Proof.MoveP Proof.UnzipP Proof.ExtractP Proof.ExtractP2 Proof.ShiftP
  Proof.PopcntP Proof.ReduceP Proof.ReduceP6 Proof.ReduceMulP Proof.BitTestP Proof.BitTestP2 Proof.BitTestP3.

Lemma satu_id w x : 0 <= x < 2 ^ w -> satu w x = x.
Proof. intros H. unfold satu. destruct (Z.ltb_spec x 0); [lia|]. destruct (Z.ltb_spec (2 ^ w - 1) x); lia. Qed.
Lemma sats_id w x : 0 <= x < 2 ^ (w - 1) -> sats w x = x.
Proof. intros H. unfold sats. destruct (Z.ltb_spec x (- 2 ^ (w - 1))); [lia|]. destruct (Z.ltb_spec (2 ^ (w - 1) - 1) x); lia. Qed.
(** vec_sums of small words; its low half-word *)
Lemma sums_lane a v : (forall i, 0 <= i < 4 -> 0 <= lane 32 i a < 2 ^ 16) -> v = lane 32 0 a + lane 32 1 a + lane 32 2 a + lane 32 3 a -> v < 2 ^ 16 ->
  lane 16 6 (vec_sums a 0) = v.
Proof.
  intros H -> Hv. pose proof (UnzipP.lane_lo 16 3 (vec_sums a 0)) as L. change (2 * 16) with 32 in L. change (2 * 3) with 6 in L. rewrite <- L by lia.
  unfold vec_sums. rewrite lane_pack by lt. change (3 =? 3) with true. cbn iota. rewrite lane_of_zero. change (zrange 4) with [0; 1; 2; 3]. cbn [map fold_right]. change (sgn 32 0) with 0.
  pose proof (H 0 ltac:(lia)). pose proof (H 1 ltac:(lia)). pose proof (H 2 ltac:(lia)). pose proof (H 3 ltac:(lia)). change (2 ^ 16) with 65536 in *.
  rewrite !sgn_id by (try lia; change (2 ^ (32 - 1)) with 2147483648; lia). rewrite sats_id by (change (2 ^ (32 - 1)) with 2147483648; lia).
  rewrite (wrap_small 32) by (change (2 ^ 32) with 4294967296; lia). rewrite wrap_small by (change (2 ^ 16) with 65536; lia). lia.
Qed.
Lemma sum4s_lane a i : 0 <= i < 4 -> lane 32 i (vec_sum4s false 8 a 0) = lane 8 (4 * i) a + lane 8 (4 * i + 1) a + lane 8 (4 * i + 2) a + lane 8 (4 * i + 3) a.
Proof.
  intros Hi. unfold vec_sum4s, vlane. rewrite lane_pack by (try reflexivity; change (128 / 32) with 4; lia). change (32 / 8) with 4. change (zrange 4) with [0; 1; 2; 3]. cbn [map fold_right]. rewrite lane_of_zero.
  rewrite !Z.add_0_r. pose proof (lane_range 8 (4 * i) a ltac:(lia)). pose proof (lane_range 8 (4 * i + 1) a ltac:(lia)). pose proof (lane_range 8 (4 * i + 2) a ltac:(lia)). pose proof (lane_range 8 (4 * i + 3) a ltac:(lia)).
  change (2 ^ 8) with 256 in *. rewrite satu_id by (change (2 ^ 32) with 4294967296; lia). rewrite wrap_small by (change (2 ^ 32) with 4294967296; lia). lia.
Qed.
Lemma zip_low x y : lane 16 0 (vzip 8 64 false x y) = lane 8 0 x + lane 8 0 y * 2 ^ 8.
Proof.
  pose proof (lane_double 8 0 (vzip 8 64 false x y)) as D. change (8 * 2) with 16 in D. change (2 * 0) with 0 in D. change (0 + 1) with 1 in D. rewrite D by lia. unfold vzip. f_equal.
  - etransitivity; [apply (lane_lsh 8 64 (64 / 8) _ [x; y] 0 0); [reflexivity|split; [lia|reflexivity]|split; [lia|reflexivity]]|reflexivity].
  - f_equal. etransitivity; [apply (lane_lsh 8 64 (64 / 8) _ [x; y] 0 1); [reflexivity|split; [lia|reflexivity]|split; [lia|reflexivity]]|reflexivity].
Qed.
Section L.
  Variables (A : arch) (fp : Z).
  Hypotheses (HV : valid_arch A = true) (Hfp : fp mod 64 = 0).
  Local Notation F16 := (fp16 fp Hfp).
  Definition bpos (i : Z) : Z := if use_null A then 0 else if use_sse2 A then 7 else i mod 8.
  Lemma masked8 a : reg 128 a -> exists x, (let* mask := i_make_const A W8 R128 (one_bits 8) 0 in i_bit_and A W8 R128 a mask) = Ok x /\ reg 128 x /\ m8 a x.
  Proof.
    intros Ha. destruct (masked A HV W8 8 a ltac:(cbn; lia) (Nat.lt_0_succ 7) Ha) as (x & E & Hx & L). exists x. split; [exact E|]. split; auto.
  Qed.
  Lemma any8_ok a : reg 128 a -> exists r, i_extract_bits_any8 A fp a = Ok r /\ bits_of 16 (fun i => Z.testbit (lane 8 i a) (bpos i)) r.
  Proof.
    intros Ha. unfold i_extract_bits_any8, bpos. destruct (use_null A) eqn:E0.
    { eexists. split; [reflexivity|]. apply (null_bits_ok 16 15). lia. }
    destruct (use_sse2 A) eqn:E1.
    { eexists. split; [reflexivity|]. unfold mm_movemask. assert (RG : 0 <= kmask 8 128 (fun i => Z.testbit (lane 8 i a) (8 - 1)) < 2 ^ 16) by (unfold kmask; apply mk_range; lia).
      rewrite wrap_small by exact RG. split; [exact RG|]. intros i Hi. rewrite MaskP.testbit_kmask by (try reflexivity; exact Hi). reflexivity. }
    destruct (masked8 a Ha) as (x & E & Hx & M). pose proof (m8_sum a x 0 M ltac:(lia)) as S0. pose proof (m8_sum a x 1 M ltac:(lia)) as S1.
    pose proof (bmk_range 8 (tb8 a 0)) as B0. pose proof (bmk_range 8 (tb8 a 1)) as B1. change (2 ^ Z.of_nat 8) with 256 in *.
    destruct (use_neon A) eqn:E2.
    { rewrite bind2, E. cbn [bind]. eexists. split; [reflexivity|]. cbv zeta. pose proof (neon_half x 0 ltac:(lia)) as N0. pose proof (neon_half x 1 ltac:(lia)) as N1. rewrite S0 in N0. rewrite S1 in N1. rewrite N0, N1.
      rewrite zip_low.
      rewrite !lane_0, !wrap_small by (change (2 ^ 8) with 256; lia). apply bits8; reflexivity. }
    destruct (use_altivec A) eqn:E3.
    { rewrite bind2, E. cbn [bind]. cbv zeta. rewrite i_make_const_ok by (auto; cbn; lia). cbn [bind rbits wb]. set (sh := pack 32 128 (fun k => cval_at [0; 0; 8; 8] (0 + k))).
      set (s := vec_sum4s false 8 x 0).
      assert (LS : forall i, 0 <= i < 4 -> lane 32 i (vec_sl 32 s sh) = lane 32 i s * (if i <? 2 then 1 else 256)).
      { intros i Hi. unfold vec_sl. rewrite lane_v2 by (try reflexivity; change (128 / 32) with 4; lia). unfold sh. rewrite lane_pack by (try reflexivity; change (128 / 32) with 4; lia).
        assert (B : lane 32 i s < 1024). { unfold s. rewrite sum4s_lane by lia. pose proof (lane_range 8 (4 * i) x ltac:(lia)). pose proof (lane_range 8 (4 * i + 1) x ltac:(lia)). pose proof (lane_range 8 (4 * i + 2) x ltac:(lia)). pose proof (lane_range 8 (4 * i + 3) x ltac:(lia)). change (2 ^ 8) with 256 in *. lia. }
        pose proof (lane_range 32 i s ltac:(lia)) as B2. assert (C : i = 0 \/ i = 1 \/ i = 2 \/ i = 3) by lia.
        destruct C as [-> |[-> |[-> | ->]]]; (match goal with |- wrap 32 (Z.shiftl _ (?c mod 32)) = _ => let v := eval vm_compute in (c mod 32) in change (c mod 32) with v end);
          rewrite Z.shiftl_mul_pow2 by lia; cbn [Z.ltb Z.compare Pos.compare Pos.compare_cont]; (match goal with |- wrap 32 (_ * ?p) = _ => let v := eval vm_compute in p in change p with v end); apply wrap_small; change (2 ^ 32) with 4294967296; lia. }
      assert (Q : forall i, 0 <= i < 4 -> lane 32 i s = lane 8 (4 * i) x + lane 8 (4 * i + 1) x + lane 8 (4 * i + 2) x + lane 8 (4 * i + 3) x) by (intros; apply sum4s_lane; auto).
      change (8 * 0 + 0) with 0 in S0. change (8 * 0 + 1) with 1 in S0. change (8 * 0 + 2) with 2 in S0. change (8 * 0 + 3) with 3 in S0. change (8 * 0 + 4) with 4 in S0. change (8 * 0 + 5) with 5 in S0. change (8 * 0 + 6) with 6 in S0. change (8 * 0 + 7) with 7 in S0.
      change (8 * 1 + 0) with 8 in S1. change (8 * 1 + 1) with 9 in S1. change (8 * 1 + 2) with 10 in S1. change (8 * 1 + 3) with 11 in S1. change (8 * 1 + 4) with 12 in S1. change (8 * 1 + 5) with 13 in S1. change (8 * 1 + 6) with 14 in S1. change (8 * 1 + 7) with 15 in S1.
      pose proof (Q 0 ltac:(lia)) as Q0. pose proof (Q 1 ltac:(lia)) as Q1. pose proof (Q 2 ltac:(lia)) as Q2. pose proof (Q 3 ltac:(lia)) as Q3.
      change (4 * 0) with 0 in Q0. change (0 + 1) with 1 in Q0. change (0 + 2) with 2 in Q0. change (0 + 3) with 3 in Q0. change (4 * 1) with 4 in Q1. change (4 + 1) with 5 in Q1. change (4 + 2) with 6 in Q1. change (4 + 3) with 7 in Q1.
      change (4 * 2) with 8 in Q2. change (8 + 1) with 9 in Q2. change (8 + 2) with 10 in Q2. change (8 + 3) with 11 in Q2. change (4 * 3) with 12 in Q3. change (12 + 1) with 13 in Q3. change (12 + 2) with 14 in Q3. change (12 + 3) with 15 in Q3.
      pose proof (LS 0 ltac:(lia)) as L0. pose proof (LS 1 ltac:(lia)) as L1. pose proof (LS 2 ltac:(lia)) as L2. pose proof (LS 3 ltac:(lia)) as L3. cbn [Z.ltb Z.compare Pos.compare Pos.compare_cont] in L0, L1, L2, L3.
      pose proof (lane_range 32 0 s ltac:(lia)). pose proof (lane_range 32 1 s ltac:(lia)). pose proof (lane_range 32 2 s ltac:(lia)). pose proof (lane_range 32 3 s ltac:(lia)).
      rewrite (ext_l A fp HV Hfp); [|reflexivity|apply pack_reg; reflexivity|split; [cbn; lia|reflexivity]]. eexists. split; [reflexivity|]. cbn [eb].
      rewrite (sums_lane _ (bmk 8 (tb8 a 0) + bmk 8 (tb8 a 1) * 256)); [apply bits8; reflexivity| |lia|change (2 ^ 16) with 65536; lia].
      intros i Hi. change (2 ^ 16) with 65536. assert (C : i = 0 \/ i = 1 \/ i = 2 \/ i = 3) by lia. destruct C as [-> |[-> |[-> | ->]]]; lia. }
    destruct (use_msa A) eqn:E4; [|exfalso; apply none_left with A; auto].
    rewrite bind2, E. cbn [bind]. cbv zeta. pose proof (msa_half x 0 ltac:(lia)) as N0. pose proof (msa_half x 1 ltac:(lia)) as N1. rewrite S0 in N0. rewrite S1 in N1.
    match type of N0 with lane 64 0 ?t = _ => set (y := t) in * end. assert (Hy : reg 128 y) by (apply pack_reg; reflexivity).
    rewrite i_move_l_ok by (auto; try reflexivity; cbn; lia). cbn [bind rbits]. change (eb I8) with 8. change (en I8) with 16.
    assert (Hm : reg 128 (lsh 8 128 16 (p_move_l 16 7) [y])) by (apply lsh_reg; reflexivity).
    rewrite i_bit_or_ok by (auto; reflexivity). cbn [bind]. rewrite (ext_l A fp HV Hfp); [|reflexivity|apply lor_reg; auto; lia|split; [cbn; lia|reflexivity]]. eexists. split; [reflexivity|]. cbn [eb].
    pose proof (lane_double 8 0 (Z.lor y (lsh 8 128 16 (p_move_l 16 7) [y]))) as D. change (8 * 2) with 16 in D. change (2 * 0) with 0 in D. change (0 + 1) with 1 in D. rewrite D by lia. rewrite !lane_lor by lia.
    pose proof (lane_lsh 8 128 16 (p_move_l 16 7) [y] 0 0 eq_refl ltac:(lia) ltac:(split; [lia|reflexivity])) as L0. pose proof (lane_lsh 8 128 16 (p_move_l 16 7) [y] 0 1 eq_refl ltac:(lia) ltac:(split; [lia|reflexivity])) as L1.
    change (16 * 0 + 0) with 0 in L0. change (16 * 0 + 1) with 1 in L1. rewrite L0, L1. change (p_move_l 16 7 0) with (Some (0%nat, 7)). change (p_move_l 16 7 1) with (Some (0%nat, 8)). cbn [nth]. change (16 * 0 + 7) with 7. change (16 * 0 + 8) with 8.
    pose proof (small_lane 8 0 0 y _ N0 ltac:(change (2 ^ 8) with 256; lia) ltac:(lia) ltac:(lia) ltac:(lia) ltac:(lia) eq_refl) as P0. pose proof (small_lane 8 0 1 y _ N0 ltac:(change (2 ^ 8) with 256; lia) ltac:(lia) ltac:(lia) ltac:(lia) ltac:(lia) eq_refl) as P1.
    pose proof (small_lane 8 0 7 y _ N0 ltac:(change (2 ^ 8) with 256; lia) ltac:(lia) ltac:(lia) ltac:(lia) ltac:(lia) eq_refl) as P7. pose proof (small_lane 8 1 0 y _ N1 ltac:(change (2 ^ 8) with 256; lia) ltac:(lia) ltac:(lia) ltac:(lia) ltac:(lia) eq_refl) as P8.
    change (64 / 8 * 0 + 0) with 0 in P0. change (64 / 8 * 0 + 1) with 1 in P1. change (64 / 8 * 0 + 7) with 7 in P7. change (64 / 8 * 1 + 0) with 8 in P8. cbn [Z.eqb] in P0, P1, P7, P8. rewrite P0, P1, P7, P8. rewrite Z.lor_0_r, Z.lor_0_l.
    apply bits8; reflexivity.
  Qed.
End L.
