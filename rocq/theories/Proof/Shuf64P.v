(** 64-bit two-argument shuffles on registers of 256 and 512 bits *)
From Verif Require Import Proof.PermuteP Proof.Shuf4x2P Model.Shuf64.

Definition s4 (s0 s1 s2 s3 k : Z) : Z := if k =? 0 then s0 else if k =? 1 then s1 else if k =? 2 then s2 else s3.
Lemma s4_range n s0 s1 s2 s3 k : 0 <= s0 < n -> 0 <= s1 < n -> 0 <= s2 < n -> 0 <= s3 < n -> 0 <= s4 s0 s1 s2 s3 k < n.
Proof. intros. unfold s4. repeat match goal with |- context [if ?c then _ else _] => destruct c end; assumption. Qed.
Lemma i2_mask s0 s1 s2 s3 k : 0 <= s0 < 4 -> 0 <= s1 < 4 -> 0 <= s2 < 4 -> 0 <= s3 < 4 -> 0 <= k < 4 ->
  i2 (mask_4x4 s0 s1 s2 s3) k = s4 s0 s1 s2 s3 k.
Proof. intros. apply Z.eqb_eq. enum. Qed.
(** the blend immediates *)
Definition sel4 (b0 b1 b2 b3 : bool) (k : Z) : bool := if k =? 0 then b0 else if k =? 1 then b1 else if k =? 2 then b2 else b3.
Definition z (b : bool) : Z := if b then 1 else 0.
Lemma blend32 b0 b1 b2 b3 a b : reg 256 a -> reg 256 b ->
  mm_blend 32 256 (3 * z b0 + 0x0c * z b1 + 0x30 * z b2 + 0xc0 * z b3) a b =
  lsh 64 256 4 (fun k => if sel4 b0 b1 b2 b3 k then fromB k else fromA k) [a; b].
Proof. intros. destruct b0, b1, b2, b3; selg 32. Qed.
Lemma blend64 b0 b1 b2 b3 a b : reg 512 a -> reg 512 b ->
  let m := z b0 + 2 * z b1 + 4 * z b2 + 8 * z b3 in mm_blend 64 512 (m + 16 * m) a b =
  lsh 64 512 4 (fun k => if sel4 b0 b1 b2 b3 k then fromB k else fromA k) [a; b].
Proof. intros Ha Hb. cbv zeta. destruct b0, b1, b2, b3; selg 64. Qed.
Lemma four_k (P : Z -> Prop) : P 0 -> P 1 -> P 2 -> P 3 -> forall k, 0 <= k < 4 -> P k.
Proof. intros H0 H1 H2 H3 k Hk. assert (k = 0 \/ k = 1 \/ k = 2 \/ k = 3) as [-> | [-> | [-> | ->]]] by lia; assumption. Qed.
Lemma p4x2 s0 s1 s2 s3 k : p_shuffle4x2 s0 s1 s2 s3 k = p_cat 4 (s4 s0 s1 s2 s3 k).
Proof. reflexivity. Qed.
(** index registers: lane k selects the 64-bit lane [f k] of the two arguments in a row *)
Lemma permutex2_lsh (R : Z) a b (f : Z -> Z) s0 s1 s2 s3 : gok 64 R 4 = true ->
  0 <= s0 < 8 -> 0 <= s1 < 8 -> 0 <= s2 < 8 -> 0 <= s3 < 8 -> R / 64 <= 64 ->
  (forall g k, 0 <= g < R / (4 * 64) -> 0 <= k < 4 -> f (4 * g + k) = let s := s4 s0 s1 s2 s3 k in
     if s <? 4 then 4 * g + s else R / 64 + 4 * g + (s - 4)) ->
  mm_permutex2var 64 R a (pack 64 R f) b = lsh 64 R 4 (p_shuffle4x2 s0 s1 s2 s3) [a; b].
Proof.
  intros HG H0 H1 H2 H3 Hs Hf. pose proof HG as HG'. destruct (gok_spec _ _ _ HG') as (HW & Hn & HD & HM).
  destruct (wok_spec _ _ HW) as (_ & HR & ER & _).
  apply eq_lsh; [assumption|apply pack_reg; assumption|]. intros g k Hg Hk.
  assert (4 * (R / (4 * 64)) = R / 64) as EQ.
  { unfold gok in HG. rewrite !andb_true_iff, Z.eqb_eq in HG. destruct HG as [_ HD'].
    pose proof (Z.div_exact R (4 * 64) ltac:(lia)) as [_ E]. specialize (E HD').
    generalize dependent (R / (4 * 64)). intros q **. lia. }
  pose proof (s4_range 8 s0 s1 s2 s3 k H0 H1 H2 H3) as HS.
  unfold mm_permutex2var. rewrite lane_pack by (assumption || lia). cbv zeta. rewrite lane_pack by (assumption || lia).
  rewrite Hf by assumption. cbv zeta. rewrite p4x2. unfold p_cat. set (s := s4 s0 s1 s2 s3 k) in *.
  set (q := R / 64) in *. assert (2 ^ 64 = 18446744073709551616) as E64 by reflexivity.
  destruct (Z.ltb_spec s 4).
  - rewrite (wrap_small 64 (4 * g + s)) by (rewrite E64; lia). rewrite Z.mod_small by lia. replace (4 * g + s <? q) with true by (symmetry; apply Z.ltb_lt; lia).
    apply wrap_lane.
  - rewrite (wrap_small 64 (q + 4 * g + (s - 4))) by (rewrite E64; lia). rewrite Z.mod_small by lia. replace (q + 4 * g + (s - 4) <? q) with false by (symmetry; apply Z.ltb_ge; lia).
    rewrite wrap_lane. cbn [nth]. f_equal. lia.
Qed.
Lemma permutex2_low a b (f : Z -> Z) s0 s1 s2 s3 :
  0 <= s0 < 8 -> 0 <= s1 < 8 -> 0 <= s2 < 8 -> 0 <= s3 < 8 ->
  (forall k, 0 <= k < 4 -> f k = let s := s4 s0 s1 s2 s3 k in if s <? 4 then s else s + 4) ->
  lane 256 0 (mm_permutex2var 64 512 a (pack 64 512 f) b) = lsh 64 256 4 (p_shuffle4x2 s0 s1 s2 s3) [a; b].
Proof.
  intros H0 H1 H2 H3 Hf. apply eq_lsh; [reflexivity|apply lane_range; lia|].
  intros g k Hg Hk. change (256 / (4 * 64)) with 1 in Hg. assert (g = 0) as -> by lia.
  change 256 with (64 * 4). rewrite lane_lane by lia. replace (0 * 4 + (4 * 0 + k)) with k by lia.
  pose proof (s4_range 8 s0 s1 s2 s3 k H0 H1 H2 H3) as HS.
  assert (0 <= k < 512 / 64) as Hk8 by (change (512 / 64) with 8; lia).
  unfold mm_permutex2var. rewrite lane_pack by (reflexivity || assumption). cbv zeta. rewrite lane_pack by (reflexivity || assumption).
  rewrite Hf by assumption. cbv zeta. rewrite p4x2. unfold p_cat. set (s := s4 s0 s1 s2 s3 k) in *.
  change (512 / 64) with 8. assert (2 ^ 64 = 18446744073709551616) as E64 by reflexivity.
  destruct (Z.ltb_spec s 4).
  - rewrite (wrap_small 64 s) by (rewrite E64; lia). rewrite Z.mod_small by lia. replace (s <? 8) with true by (symmetry; apply Z.ltb_lt; lia).
    apply wrap_lane.
  - rewrite (wrap_small 64 (s + 4)) by (rewrite E64; lia). rewrite Z.mod_small by lia. replace (s + 4 <? 8) with false by (symmetry; apply Z.ltb_ge; lia).
    rewrite wrap_lane. cbn [nth]. f_equal. lia.
Qed.
Ltac idxk := cbv beta zeta;
  match goal with |- context [nth (Z.to_nat ?e) _ _] => let j := eval vm_compute in (Z.to_nat e) in change (Z.to_nat e) with j; cbn [nth] end;
  unfold s4; cbn [Z.eqb Pos.eqb]; repeat match goal with |- context [?x <? 4] => destruct (Z.ltb_spec x 4) end; lia.
Lemma comp9 s0 s1 s2 s3 a b : 0 <= s0 < 8 -> 0 <= s1 < 8 -> 0 <= s2 < 8 -> 0 <= s3 < 8 -> reg 256 a -> reg 256 b ->
  let m := mask_4x4 (s0 mod 4) (s1 mod 4) (s2 mod 4) (s3 mod 4) in
  lsh 64 256 4 (fun k => if sel4 (negb (s0 <? 4)) (negb (s1 <? 4)) (negb (s2 <? 4)) (negb (s3 <? 4)) k then fromB k else fromA k)
    [mm_permute4x64 256 m a; mm_permute4x64 256 m b] = lsh 64 256 4 (p_shuffle4x2 s0 s1 s2 s3) [a; b].
Proof.
  intros H0 H1 H2 H3 Ha Hb. cbv zeta.
  apply eq_lsh; [reflexivity|apply lsh_reg; reflexivity|]. intros g k Hg Hk. change (256 / (4 * 64)) with 1 in Hg. assert (g = 0) as -> by lia.
  rewrite lane_lsh; [|reflexivity|assumption|split; reflexivity || discriminate].
  assert (forall x, 0 <= x < 8 -> 0 <= x mod 4 < 4) as HM by (intros; apply Z.mod_pos_bound; lia).
  set (m := mask_4x4 _ _ _ _).
  assert (forall x, lane 64 (4 * 0 + k) (mm_permute4x64 256 m x) = lane 64 (s4 (s0 mod 4) (s1 mod 4) (s2 mod 4) (s3 mod 4) k) x) as HP.
  { intros x. unfold mm_permute4x64. rewrite lane_lsh; [|reflexivity|assumption|split; reflexivity || discriminate].
    unfold m. rewrite i2_mask by auto. cbn [nth]. f_equal; lia. }
  rewrite p4x2. unfold p_cat.
  assert (sel4 (negb (s0 <? 4)) (negb (s1 <? 4)) (negb (s2 <? 4)) (negb (s3 <? 4)) k = negb (s4 s0 s1 s2 s3 k <? 4)) as ->.
  { unfold sel4, s4. destruct (k =? 0), (k =? 1), (k =? 2); reflexivity. }
  assert (s4 (s0 mod 4) (s1 mod 4) (s2 mod 4) (s3 mod 4) k = s4 s0 s1 s2 s3 k mod 4) as EM.
  { unfold s4. destruct (k =? 0), (k =? 1), (k =? 2); reflexivity. }
  rewrite EM in HP. pose proof (s4_range 8 s0 s1 s2 s3 k H0 H1 H2 H3) as HS.
  destruct (Z.ltb_spec (s4 s0 s1 s2 s3 k) 4); cbn [negb]; cbn [nth]; rewrite HP; f_equal.
  - rewrite Z.mod_small by lia. lia.
  - Z.to_euclidean_division_equations; lia.
Qed.
Ltac lits := repeat match goal with
  | H : _ && _ = true |- _ => apply andb_true_iff in H; destruct H
  | H : (_ =? _) = true |- _ => apply Z.eqb_eq in H; subst
  end.
Lemma bl_z x : (if x <? 4 then 0 else 1) = z (negb (x <? 4)).
Proof. destruct (x <? 4); reflexivity. Qed.
Lemma i_shuffle4x2_u64_ok A s s0 s1 s2 s3 a b : valid_arch A = true -> avail_int A 64 s = true -> s <> R128 ->
  0 <= s0 < 8 -> 0 <= s1 < 8 -> 0 <= s2 < 8 -> 0 <= s3 < 8 -> reg (rbits s) a -> reg (rbits s) b ->
  i_shuffle4x2_u64 A s s0 s1 s2 s3 a b = Ok (lsh 64 (rbits s) 4 (p_shuffle4x2 s0 s1 s2 s3) [a; b]).
Proof.
  intros HV HA Hs H0 H1 H2 H3 Ha Hb. unfold i_shuffle4x2_u64.
  destruct s; [contradiction| |]; cbn [rbits] in *; cbv zeta; cbn in HA; rewrite HA; cbn [Z.eqb Pos.eqb];
  destruct ((s0 =? 0) && (s1 =? 4) && (s2 =? 2) && (s3 =? 6)) eqn:E1; [lits; okc; selg 32| |lits; okc; selg 64|];
  destruct ((s0 =? 4) && (s1 =? 0) && (s2 =? 6) && (s3 =? 2)) eqn:E2; [lits; okc; selg 32| |lits; okc; selg 64|];
  destruct ((s0 =? 1) && (s1 =? 5) && (s2 =? 3) && (s3 =? 7)) eqn:E3; [lits; okc; selg 32| |lits; okc; selg 64|];
  destruct ((s0 =? 5) && (s1 =? 1) && (s2 =? 7) && (s3 =? 3)) eqn:E4; [lits; okc; selg 32| |lits; okc; selg 64|];
  rewrite !bl_z;
  destruct (((s0 =? 0) || (s0 =? 4)) && ((s1 =? 1) || (s1 =? 5)) && ((s2 =? 2) || (s2 =? 6)) && ((s3 =? 3) || (s3 =? 7))) eqn:E5.
  1,3: rewrite ?blend32, ?blend64 by assumption; okc; apply lsh_ext; [reflexivity|];
    rewrite !andb_true_iff, !orb_true_iff, !Z.eqb_eq in E5; destruct E5 as [[[[E50|E50] [E51|E51]] [E52|E52]] [E53|E53]]; subst;
    apply four_k; reflexivity.
  - destruct (use_avx512f A) eqn:Ef.
    + destruct (use_avx512vl A) eqn:El; okc.
      * apply permutex2_lsh; [reflexivity|assumption..|discriminate|].
        intros g k Hg. change (256 / (4 * 64)) with 1 in Hg. assert (g = 0) as -> by lia. revert k.
        change (256 / 64) with 4. apply four_k; idxk.
      * apply permutex2_low; [assumption..|]. apply four_k; idxk.
    + destruct ((s0 =? 1) && (s1 =? 4) && (s2 =? 3) && (s3 =? 6)) eqn:E6; [lits; okc; selg 32|].
      rewrite blend32 by (apply lsh_reg; reflexivity). okc. apply comp9; assumption.
  - rewrite ?HA. okc. apply permutex2_lsh; [reflexivity|assumption..|discriminate|].
    intros g k Hg. change (512 / (4 * 64)) with 2 in Hg. change (512 / 64) with 8. revert k.
    assert (g = 0 \/ g = 1) as [-> | ->] by lia; apply four_k; idxk.
Qed.
