(** permute4 and shuffle4x2 of 64-bit elements *)
From Verif Require Import Proof.PermuteP Proof.Shuf2x2P Proof.Shuf64P Proof.ConvertP Proof.SplitP Model.Perm64.

Lemma av128 A e : valid_arch A = true -> avail_et A e R128 = true.
Proof. intros. destruct e; reflexivity. Qed.
Definition L4 (a0 a1 : Z) : list Z := [lane 64 0 a0; lane 64 1 a0; lane 64 0 a1; lane 64 1 a1].
Definition L8 (a0 a1 b0 b1 : Z) : list Z := L4 a0 a1 ++ L4 b0 b1.
Definition half_of (L : list Z) (s0 s1 : Z) (m : res Z) : Prop :=
  exists r, m = Ok r /\ reg 128 r /\ lane 64 0 r = nth (Z.to_nat s0) L 0 /\ lane 64 1 r = nth (Z.to_nat s1) L 0.
Lemma i_shuffle1_ok A e s s0 s1 a b : valid_arch A = true -> avail_et A e s = true -> e = I64 \/ e = F64 ->
  0 <= s0 < 2 -> 0 <= s1 < 2 -> reg (rbits s) a -> reg (rbits s) b ->
  i_shuffle1 A e s s0 s1 a b = Ok (lsh 64 (rbits s) 2 (p_shuffle1 s0 s1) [a; b]).
Proof.
  intros HV HA He H0 H1 Ha Hb. unfold i_shuffle1. rewrite i_shuffle2x2_ok; auto; try lia.
  - assert (eb e = 64) as -> by (destruct He as [-> | ->]; reflexivity).
    f_equal. apply lsh_ext; [destruct s; reflexivity|]. intros k Hk. unfold p_shuffle2x2, p_shuffle1, p_cat.
    destruct (k =? 0); match goal with |- context [?x <? 2] => destruct (Z.ltb_spec x 2); try lia end; try reflexivity.
    do 2 f_equal; lia.
  - unfold ok2x2. assert (s0 <? 2 = true) as -> by (apply Z.ltb_lt; lia).
    destruct He as [-> | ->]; rewrite ?orb_true_r; cbn [orb andb]; rewrite ?orb_true_r;
    destruct (use_sse2 A), (use_neon A), (use_vsx206 A), (use_vsx207 A); cbn [orb]; rewrite ?orb_true_r; reflexivity.
Qed.
Lemma lane2 k L env : 0 <= k < 2 -> lane 64 k (lsh 64 128 2 L env) = match L k with None => 0 | Some (m, j) => lane 64 j (nth m env 0) end.
Proof.
  intros Hk. replace k with (2 * 0 + k) at 1 by lia. rewrite lane_lsh; [|reflexivity|assumption|split; [discriminate|reflexivity]].
  destruct (L k) as [[m j]|]; reflexivity.
Qed.
Section S.
  Variables (A : arch) (HV : valid_arch A = true) (e : et) (He : e = I64 \/ e = F64).
  Variables (a0 a1 : Z) (H0 : reg 128 a0) (H1 : reg 128 a1).
  Lemma half_p2 x y a s0 s1 : 0 <= x < 2 -> 0 <= y < 2 -> reg 128 a ->
    lane 64 x a = nth (Z.to_nat s0) (L4 a0 a1) 0 -> lane 64 y a = nth (Z.to_nat s1) (L4 a0 a1) 0 ->
    half_of (L4 a0 a1) s0 s1 (i_permute2 A e R128 x y a).
  Proof.
    intros Hx Hy Ha E0 E1. rewrite i_permute2_ok; auto; [|apply av128; auto|destruct He as [-> | ->]; discriminate].
    assert (eb e = 64) as -> by (destruct He as [-> | ->]; reflexivity). cbn [rbits].
    eexists. split; [reflexivity|]. split; [apply lsh_reg; reflexivity|]. rewrite !lane2 by lia. split; assumption.
  Qed.
  Lemma half_s1 x y a b s0 s1 : 0 <= x < 2 -> 0 <= y < 2 -> reg 128 a -> reg 128 b ->
    lane 64 x a = nth (Z.to_nat s0) (L4 a0 a1) 0 -> lane 64 y b = nth (Z.to_nat s1) (L4 a0 a1) 0 ->
    half_of (L4 a0 a1) s0 s1 (i_shuffle1 A e R128 x y a b).
  Proof.
    intros Hx Hy Ha Hb E0 E1. rewrite i_shuffle1_ok; auto; [|apply av128; auto].
    eexists. split; [reflexivity|]. split; [apply lsh_reg; reflexivity|]. cbn [rbits]. rewrite !lane2 by lia. split; assumption.
  Qed.
  Lemma half_id a s0 s1 : reg 128 a ->
    lane 64 0 a = nth (Z.to_nat s0) (L4 a0 a1) 0 -> lane 64 1 a = nth (Z.to_nat s1) (L4 a0 a1) 0 ->
    half_of (L4 a0 a1) s0 s1 (Ok a).
  Proof. intros. exists a. auto. Qed.
  Lemma permute_half_ok s0 s1 : 0 <= s0 < 4 -> 0 <= s1 < 4 ->
    half_of (L4 a0 a1) s0 s1 (permute_64x4_half A e s0 s1 a0 a1).
  Proof.
    intros Hs0 Hs1. assert (s0 = 0 \/ s0 = 1 \/ s0 = 2 \/ s0 = 3) as E0 by lia. assert (s1 = 0 \/ s1 = 1 \/ s1 = 2 \/ s1 = 3) as E1 by lia.
    clear Hs0 Hs1. destruct E0 as [-> | [-> | [-> | ->]]], E1 as [-> | [-> | [-> | ->]]]; unfold permute_64x4_half; cbv zeta;
    match goal with |- context [match ?k with _ => _ end] => let k' := eval vm_compute in k in change k with k' end; cbv iota;
    first [apply half_id | apply half_p2 | apply half_s1]; first [lia | assumption | reflexivity].
  Qed.
  Lemma copy_pair_ok s0 s1 : 0 <= s0 < 4 -> 0 <= s1 < 4 -> half_of (L4 a0 a1) s0 s1 (Ok (copy_pair s0 s1 a0 a1)).
  Proof.
    intros Hs0 Hs1. exists (copy_pair s0 s1 a0 a1). split; [reflexivity|]. split; [apply pack_reg; reflexivity|].
    unfold copy_pair. rewrite !lane_pack by (reflexivity || (split; [discriminate|reflexivity])). cbn [Z.eqb].
    rewrite !wrap_lane.
    split; [clear s1 Hs1; rename s0 into t; assert (t = 0 \/ t = 1 \/ t = 2 \/ t = 3) as E by lia
           |clear s0 Hs0; rename s1 into t; assert (t = 0 \/ t = 1 \/ t = 2 \/ t = 3) as E by lia];
    destruct E as [-> | [-> | [-> | ->]]]; reflexivity.
  Qed.
  Variables (b0 b1 : Z) (K0 : reg 128 b0) (K1 : reg 128 b1).
  Lemma shuffle_half_ok s0 s1 : 0 <= s0 < 8 -> 0 <= s1 < 8 ->
    half_of (L8 a0 a1 b0 b1) s0 s1 (shuffle_64x4_half A e s0 s1 a0 a1 b0 b1).
  Proof.
    intros Hs0 Hs1. unfold shuffle_64x4_half. cbv zeta.
    set (h := fun s => if s <? 2 then a0 else if s <? 4 then a1 else if s <? 6 then b0 else b1).
    change (half_of (L8 a0 a1 b0 b1) s0 s1 (i_shuffle1 A e R128 (s0 mod 2) (s1 mod 2) (h s0) (h s1))).
    assert (forall x, reg 128 (h x)) as Hh by (intros; unfold h; repeat match goal with |- context [if ?c then _ else _] => destruct c end; assumption).
    assert (forall x, 0 <= x < 8 -> lane 64 (x mod 2) (h x) = nth (Z.to_nat x) (L8 a0 a1 b0 b1) 0) as Hl.
    { intros x Hx. assert (x = 0 \/ x = 1 \/ x = 2 \/ x = 3 \/ x = 4 \/ x = 5 \/ x = 6 \/ x = 7) as E by lia.
      decompose [or] E; subst; reflexivity. }
    rewrite i_shuffle1_ok; auto; try (apply av128; auto); try (apply Z.mod_pos_bound; lia).
    eexists. split; [reflexivity|]. split; [apply lsh_reg; reflexivity|]. cbn [rbits]. rewrite !lane2 by lia.
    exact (conj (Hl _ Hs0) (Hl _ Hs1)).
  Qed.
End S.
(** ------------------- one 256-bit register ------------------- *)
Lemma lane128_of k a : 0 <= k < 4 -> lane 64 k a = lane 64 (k mod 2) (lane 128 (k / 2) a).
Proof.
  intros Hk. change 128 with (64 * 2). rewrite lane_lane by first [lia|apply Z.div_pos; lia|apply Z.mod_pos_bound; lia].
  f_equal. rewrite (Z.div_mod k 2) at 1 by lia. lia.
Qed.
Lemma combine_lsh r0 r1 L env : reg 128 r0 -> reg 128 r1 ->
  (forall k, 0 <= k < 4 -> lane 64 (k mod 2) (if k / 2 =? 0 then r0 else r1) =
     match L k with None => 0 | Some (m, j) => lane 64 j (nth m env 0) end) ->
  mm_combine128 r0 r1 = lsh 64 256 4 L env.
Proof.
  intros H0 H1 HL. apply eq_lsh; [reflexivity|apply pack_reg; reflexivity|]. intros g k Hg Hk.
  change (256 / (4 * 64)) with 1 in Hg. assert (g = 0) as -> by lia.
  assert (0 <= 4 * 0 + k < 4) as Hk' by lia. rewrite (lane128_of _ _ Hk'). replace (4 * 0 + k) with k by lia.
  unfold mm_combine128. rewrite lane_pack; [|reflexivity|change (256 / 128) with 2; split; [apply Z.div_pos; lia|apply Z.div_lt_upper_bound; lia]].
  rewrite wrap_small by (destruct (k / 2 =? 0); assumption). rewrite HL by assumption.
  destruct (L k) as [[m j]|]; reflexivity.
Qed.
Lemma nthL4 a s : 0 <= s < 4 -> nth (Z.to_nat s) (L4 (lane 128 0 a) (lane 128 1 a)) 0 = lane 64 s a.
Proof.
  intros Hs. rewrite (lane128_of s a Hs). assert (s = 0 \/ s = 1 \/ s = 2 \/ s = 3) as E by lia. decompose [or] E; subst; reflexivity.
Qed.
Lemma nthL8 a b s : 0 <= s < 8 -> nth (Z.to_nat s) (L8 (lane 128 0 a) (lane 128 1 a) (lane 128 0 b) (lane 128 1 b)) 0 =
  if s <? 4 then lane 64 s a else lane 64 (s - 4) b.
Proof.
  intros Hs. unfold L8. destruct (Z.ltb_spec s 4).
  - rewrite app_nth1 by (cbn [length L4]; lia). apply nthL4; lia.
  - rewrite app_nth2 by (cbn [length L4]; lia). replace (Z.to_nat s - length (L4 (lane 128 0 a) (lane 128 1 a)))%nat with (Z.to_nat (s - 4)) by (cbn [length L4]; lia).
    apply nthL4; lia.
Qed.
Lemma l128_reg i a : 0 <= i -> reg 128 (lane 128 i a).
Proof. intros. apply lane_range; lia. Qed.
Lemma permute_emul256_ok A s0 s1 s2 s3 a : valid_arch A = true ->
  0 <= s0 < 4 -> 0 <= s1 < 4 -> 0 <= s2 < 4 -> 0 <= s3 < 4 -> reg 256 a ->
  permute_emul256 A s0 s1 s2 s3 a = Ok (lsh 64 256 4 (p_permute4 s0 s1 s2 s3) [a]).
Proof.
  intros HV H0 H1 H2 H3 Ha. unfold permute_emul256, i_split1, mm_extract128.
  assert (reg 128 (lane 128 0 a)) as R0 by (apply l128_reg; lia). assert (reg 128 (lane 128 1 a)) as R1 by (apply l128_reg; lia).
  destruct (permute_half_ok A HV F64 (or_intror eq_refl) _ _ R0 R1 s0 s1 H0 H1) as (x & -> & Hx & X0 & X1).
  destruct (permute_half_ok A HV F64 (or_intror eq_refl) _ _ R0 R1 s2 s3 H2 H3) as (y & -> & Hy & Y0 & Y1).
  cbn [bind]. rewrite nthL4 in X0, X1, Y0, Y1 by assumption.
  apply f_equal. apply combine_lsh; [assumption..|]. apply four_k; [exact X0|exact X1|exact Y0|exact Y1].
Qed.
Lemma i_permute4_f64_ok A s s0 s1 s2 s3 a : valid_arch A = true -> avail_flt A s = true -> s <> R128 ->
  0 <= s0 < 4 -> 0 <= s1 < 4 -> 0 <= s2 < 4 -> 0 <= s3 < 4 -> reg (rbits s) a ->
  i_permute4_f64 A s s0 s1 s2 s3 a = Ok (lsh 64 (rbits s) 4 (p_permute4 s0 s1 s2 s3) [a]).
Proof.
  intros HV HA Hs H0 H1 H2 H3 Ha. unfold i_permute4_f64. destruct s; [contradiction| |]; cbn [rbits] in *; cbn in HA; rewrite HA.
  - destruct (use_avx2 A); [sh_leaf 32|apply permute_emul256_ok; assumption].
  - sh_leaf 32.
Qed.
Definition is_zip4 (s0 s1 s2 s3 : Z) : bool :=
  let is a b c d := (s0 =? a) && (s1 =? b) && (s2 =? c) && (s3 =? d) in
  is 0 4 2 6 || is 4 0 6 2 || is 1 5 3 7 || is 5 1 7 3.
Definition is_blend4 (s0 s1 s2 s3 : Z) : bool := (s0 mod 4 =? 0) && (s1 mod 4 =? 1) && (s2 mod 4 =? 2) && (s3 mod 4 =? 3).
(** the selectors for which shuffle4x2 of a 256-bit float64 register is right *)
Definition ok4x2_f64 (A : arch) (s : rsz) (s0 s1 s2 s3 : Z) : bool :=
  match s with
  | R256 =>
      if use_avx512f A then is_zip4 s0 s1 s2 s3 || is_blend4 s0 s1 s2 s3 || ((s0 <? 4) && (s1 <? 4) && (s2 <? 4) && (s3 <? 4))
      else if use_avx2 A then true
      else negb ((s0 / 2 =? 2) && (s1 / 2 =? 0) && (s2 / 2 =? 3) && (s3 / 2 =? 1)) || ((s1 =? s0 - 4) && (s3 - 2 =? s2 - 6))
  | _ => true
  end.
Lemma blend64_256 b0 b1 b2 b3 a b : reg 256 a -> reg 256 b ->
  mm_blend 64 256 (z b0 + 2 * z b1 + 4 * z b2 + 8 * z b3) a b =
  lsh 64 256 4 (fun k => if sel4 b0 b1 b2 b3 k then fromB k else fromA k) [a; b].
Proof. intros. destruct b0, b1, b2, b3; selg 32. Qed.
Lemma blend_is s0 s1 s2 s3 : 0 <= s0 < 8 -> 0 <= s1 < 8 -> 0 <= s2 < 8 -> 0 <= s3 < 8 ->
  is_blend4 s0 s1 s2 s3 =
  ((s0 =? 0) || (s0 =? 4)) && ((s1 =? 1) || (s1 =? 5)) && ((s2 =? 2) || (s2 =? 6)) && ((s3 =? 3) || (s3 =? 7)).
Proof.
  assert (forall x j, 0 <= x < 8 -> 0 <= j < 4 -> (x mod 4 =? j) = (x =? j) || (x =? j + 4)) as H.
  { intros x j Hx Hj. assert (x = 0 \/ x = 1 \/ x = 2 \/ x = 3 \/ x = 4 \/ x = 5 \/ x = 6 \/ x = 7) as E by lia.
    assert (j = 0 \/ j = 1 \/ j = 2 \/ j = 3) as F by lia. decompose [or] E; decompose [or] F; subst; reflexivity. }
  intros. unfold is_blend4. rewrite !H by lia. reflexivity.
Qed.
Lemma half8 A a b s0 s1 : valid_arch A = true -> 0 <= s0 < 8 -> 0 <= s1 < 8 ->
  exists r, shuffle_64x4_half A F64 s0 s1 (lane 128 0 a) (lane 128 1 a) (lane 128 0 b) (lane 128 1 b) = Ok r /\ reg 128 r /\
    lane 64 0 r = (if s0 <? 4 then lane 64 s0 a else lane 64 (s0 - 4) b) /\
    lane 64 1 r = (if s1 <? 4 then lane 64 s1 a else lane 64 (s1 - 4) b).
Proof.
  intros HV H0 H1.
  destruct (shuffle_half_ok A HV F64 (or_intror eq_refl) (lane 128 0 a) (lane 128 1 a) (l128_reg 0 a ltac:(lia)) (l128_reg 1 a ltac:(lia))
    (lane 128 0 b) (lane 128 1 b) (l128_reg 0 b ltac:(lia)) (l128_reg 1 b ltac:(lia)) s0 s1 H0 H1) as (r & E & Hr & X & Y).
  rewrite nthL8 in X, Y by assumption. exists r. auto.
Qed.
Lemma p4_lane s0 s1 s2 s3 k a b : 
  match p_shuffle4x2 s0 s1 s2 s3 k with None => 0 | Some (m, j) => lane 64 j (nth m [a; b] 0) end =
  (let s := s4 s0 s1 s2 s3 k in if s <? 4 then lane 64 s a else lane 64 (s - 4) b).
Proof. rewrite p4x2. unfold p_cat. cbv zeta. destruct (s4 s0 s1 s2 s3 k <? 4); reflexivity. Qed.
Lemma two_of s lo : 0 <= lo -> s / 2 = lo -> s = 2 * lo \/ s = 2 * lo + 1.
Proof. intros. Z.to_euclidean_division_equations. lia. Qed.
Section F.
  Variables (A : arch) (HV : valid_arch A = true) (u v s0 s1 s2 s3 a b : Z).
  Hypotheses (H0 : 0 <= s0 < 8) (H1 : 0 <= s1 < 8) (H2 : 0 <= s2 < 8) (H3 : 0 <= s3 < 8).
  Lemma i_shuffle4x2_f64_512 : avail_flt A R512 = true -> reg 512 a -> reg 512 b ->
    i_shuffle4x2_f64 A R512 u v s0 s1 s2 s3 a b = Ok (lsh 64 512 4 (p_shuffle4x2 s0 s1 s2 s3) [a; b]).
  Proof.
    intros HA Ha Hb. unfold i_shuffle4x2_f64. cbn [rbits]. cbv zeta. cbn in HA. rewrite HA. cbn [Z.eqb Pos.eqb].
    destruct ((s0 =? 0) && (s1 =? 4) && (s2 =? 2) && (s3 =? 6)) eqn:E1; [lits; okc; selg 64|].
    destruct ((s0 =? 4) && (s1 =? 0) && (s2 =? 6) && (s3 =? 2)) eqn:E2; [lits; okc; selg 64|].
    destruct ((s0 =? 1) && (s1 =? 5) && (s2 =? 3) && (s3 =? 7)) eqn:E3; [lits; okc; selg 64|].
    destruct ((s0 =? 5) && (s1 =? 1) && (s2 =? 7) && (s3 =? 3)) eqn:E4; [lits; okc; selg 64|].
    rewrite !bl_z.
    destruct (((s0 =? 0) || (s0 =? 4)) && ((s1 =? 1) || (s1 =? 5)) && ((s2 =? 2) || (s2 =? 6)) && ((s3 =? 3) || (s3 =? 7))) eqn:E5.
    { rewrite ?blend64 by assumption; okc; apply lsh_ext; [reflexivity|];
      rewrite !andb_true_iff, !orb_true_iff, !Z.eqb_eq in E5; destruct E5 as [[[[E50|E50] [E51|E51]] [E52|E52]] [E53|E53]]; subst;
      apply four_k; reflexivity. }
    okc. apply permutex2_lsh; [reflexivity|assumption..|discriminate|].
    intros g k Hg. change (512 / (4 * 64)) with 2 in Hg. change (512 / 64) with 8. revert k.
    assert (g = 0 \/ g = 1) as [-> | ->] by lia; apply four_k; idxk.
  Qed.
  Lemma i_shuffle4x2_f64_256 : avail_flt A R256 = true -> reg 256 a -> reg 256 b -> ok4x2_f64 A R256 s0 s1 s2 s3 = true ->
    i_shuffle4x2_f64 A R256 u v s0 s1 s2 s3 a b = Ok (lsh 64 256 4 (p_shuffle4x2 s0 s1 s2 s3) [a; b]).
  Proof.
    intros HA Ha Hb HO. unfold ok4x2_f64, is_zip4 in HO. cbv zeta in HO. rewrite blend_is in HO by assumption.
    unfold i_shuffle4x2_f64. cbn [rbits]. cbv zeta. cbn in HA. rewrite HA. cbn [Z.eqb Pos.eqb].
    destruct ((s0 =? 0) && (s1 =? 4) && (s2 =? 2) && (s3 =? 6)) eqn:E1; [lits; okc; selg 32|].
    destruct ((s0 =? 4) && (s1 =? 0) && (s2 =? 6) && (s3 =? 2)) eqn:E2; [lits; okc; selg 32|].
    destruct ((s0 =? 1) && (s1 =? 5) && (s2 =? 3) && (s3 =? 7)) eqn:E3; [lits; okc; selg 32|].
    destruct ((s0 =? 5) && (s1 =? 1) && (s2 =? 7) && (s3 =? 3)) eqn:E4; [lits; okc; selg 32|].
    rewrite !bl_z.
    destruct (((s0 =? 0) || (s0 =? 4)) && ((s1 =? 1) || (s1 =? 5)) && ((s2 =? 2) || (s2 =? 6)) && ((s3 =? 3) || (s3 =? 7))) eqn:E5.
    { rewrite ?blend64_256 by assumption; okc; apply lsh_ext; [reflexivity|];
      rewrite !andb_true_iff, !orb_true_iff, !Z.eqb_eq in E5; destruct E5 as [[[[E50|E50] [E51|E51]] [E52|E52]] [E53|E53]]; subst;
      apply four_k; reflexivity. }
    destruct (use_avx512f A) eqn:Ef.
    { cbn [orb] in HO. rewrite !andb_true_iff, !Z.ltb_lt in HO. destruct HO as [[[L0 L1] L2] L3].
      okc. apply eq_lsh; [reflexivity|apply lane_range; lia|]. intros g k Hg Hk.
      change (256 / (4 * 64)) with 1 in Hg. assert (g = 0) as -> by lia. rewrite Z.mul_0_r, !Z.add_0_l.
      change 256 with (64 * 4) at 1. rewrite lane_lane by lia. rewrite Z.mul_0_l, Z.add_0_l.
      assert (0 <= k < 512 / 64) as Hk8 by (change (512 / 64) with 8; lia).
      transitivity (let s := s4 s0 s1 s2 s3 k in if s <? 4 then lane 64 s a else lane 64 (s - 4) b); [|symmetry; apply p4_lane].
      cbv zeta. assert (0 <= s4 s0 s1 s2 s3 k < 4) as HS by (unfold s4; repeat match goal with |- context [if ?c then _ else _] => destruct c end; lia).
      replace (s4 s0 s1 s2 s3 k <? 4) with true by (symmetry; apply Z.ltb_lt; lia).
      unfold mm_permutex2var. rewrite lane_pack by (reflexivity || assumption). cbv zeta. rewrite lane_pack by (reflexivity || assumption).
      match goal with |- context [nth ?i ?l 0] => assert (nth i l 0 = s4 s0 s1 s2 s3 k) as -> end.
      { clear - Hk. revert k Hk. apply four_k; reflexivity. }
      change (512 / 64) with 8. assert (2 ^ 64 = 18446744073709551616) as E64 by reflexivity.
      rewrite (wrap_small 64 (s4 s0 s1 s2 s3 k)) by (rewrite E64; lia). rewrite Z.mod_small by lia.
      replace (s4 s0 s1 s2 s3 k <? 8) with true by (symmetry; apply Z.ltb_lt; lia). rewrite wrap_lane.
      replace (s4 s0 s1 s2 s3 k) with (0 * 4 + s4 s0 s1 s2 s3 k) at 1 by lia. rewrite <- lane_lane by lia.
      change (64 * 4) with 256. rewrite lane_pack by (reflexivity || (split; [discriminate|reflexivity])). cbn [Z.eqb].
      rewrite wrap_small by exact Ha. reflexivity. }
    destruct (use_avx2 A) eqn:E2'; cbn [negb].
    { destruct ((s0 =? 1) && (s1 =? 4) && (s2 =? 3) && (s3 =? 6)) eqn:E6; [lits; okc; selg 32|].
      rewrite blend64_256 by (apply lsh_reg; reflexivity). okc. apply comp9; assumption. }
    destruct ((s0 / 2 =? 0) && (s1 / 2 =? 2) && (s2 / 2 =? 1) && (s3 / 2 =? 3)) eqn:E6.
    { rewrite !andb_true_iff, !Z.eqb_eq in E6. destruct E6 as [[[F0 F1] F2] F3].
      apply two_of in F0; [|lia]. apply two_of in F1; [|lia]. apply two_of in F2; [|lia]. apply two_of in F3; [|lia].
      clear HO E1 E2 E3 E4 E5. destruct F0 as [-> | ->], F1 as [-> | ->], F2 as [-> | ->], F3 as [-> | ->];
      match goal with |- context [if ?c then _ else _] => let c' := eval vm_compute in c in change c with c' end; cbv iota; okc; selg 32. }
    destruct ((s0 / 2 =? 2) && (s1 / 2 =? 0) && (s2 / 2 =? 3) && (s3 / 2 =? 1)) eqn:E7.
    { cbn [negb orb] in HO. rewrite !andb_true_iff, !Z.eqb_eq in E7. rewrite !andb_true_iff, !Z.eqb_eq in HO. destruct E7 as [[[F0 F1] F2] F3]. destruct HO as [G1 G3].
      apply two_of in F0; [|lia]. apply two_of in F2; [|lia]. assert (s3 = s2 - 4) as -> by (clear - G3; lia). subst s1.
      clear E1 E2 E3 E4 E5 G3 F1 F3 E6. destruct F0 as [-> | ->], F2 as [-> | ->];
      match goal with |- context [if ?c then _ else _] => let c' := eval vm_compute in c in change c with c' end; cbv iota; okc; selg 32. }
    unfold i_split1, mm_extract128.
    destruct (half8 A a b s0 s1 HV H0 H1) as (x & -> & Hx & X0 & X1).
    destruct (half8 A a b s2 s3 HV H2 H3) as (y & -> & Hy & Y0 & Y1). cbn [bind]. apply f_equal.
    apply combine_lsh; [assumption..|]. intros k Hk. etransitivity; [|symmetry; apply p4_lane]. cbv zeta. revert k Hk.
    apply four_k; [exact X0|exact X1|exact Y0|exact Y1].
  Qed.
End F.
