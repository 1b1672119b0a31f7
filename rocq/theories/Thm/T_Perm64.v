(** C16: permute4 and shuffle4x2 of 64-bit elements. *)
From Verif Require Import Proof.PermuteP Base.ShufLift Model.Perm64 Proof.Shuf64P Proof.Perm64P Thm.T_Shuffle.

Lemma elems2 r : elems 64 (nl 64 128) r = [lane 64 0 r; lane 64 1 r].
Proof. reflexivity. Qed.
Lemma wf2 x y : reg 128 x -> reg 128 y -> wfv R128 [x; y].
Proof. intros. apply wfv_cons. split; [assumption|]. apply wfv_cons. split; [assumption|constructor]. Qed.
Lemma lanes2 x y : lanes 64 R128 [x; y] = [lane 64 0 x; lane 64 1 x; lane 64 0 y; lane 64 1 y].
Proof. reflexivity. Qed.
Lemma nth4 l s : 0 <= s < 4 -> nth (Z.to_nat (4 * 0 + s)) l (0 : Z) = nth (Z.to_nat s) l 0.
Proof. intros. f_equal. Qed.
Lemma grouped_pair1 s0 s1 s2 s3 a0 a1 : grouped 4 (p_permute4 s0 s1 s2 s3) [lanes 64 R128 [a0; a1]] =
  map (fun s => nth (Z.to_nat s) (L4 a0 a1) 0) [s0; s1; s2; s3].
Proof. rewrite lanes2. reflexivity. Qed.
Lemma pick_cat s0 s1 s2 s3 a0 a1 b0 b1 k : 0 <= k < 4 -> 0 <= s0 < 8 -> 0 <= s1 < 8 -> 0 <= s2 < 8 -> 0 <= s3 < 8 ->
  pick 4 (p_shuffle4x2 s0 s1 s2 s3) [L4 a0 a1; L4 b0 b1] k = nth (Z.to_nat (s4 s0 s1 s2 s3 k)) (L8 a0 a1 b0 b1) 0.
Proof.
  intros Hk H0 H1 H2 H3. pose proof (s4_range 8 s0 s1 s2 s3 k H0 H1 H2 H3) as HS.
  unfold pick. rewrite (Z.mod_small k 4) by lia. rewrite (Z.div_small k 4) by lia. rewrite p4x2. unfold p_cat, L8.
  destruct (Z.ltb_spec (s4 s0 s1 s2 s3 k) 4).
  - rewrite app_nth1 by (cbn [length L4]; lia). cbn [nth]. f_equal.
  - rewrite app_nth2 by (cbn [length L4]; lia). change (nth 1 [L4 a0 a1; L4 b0 b1] []) with (L4 b0 b1).
    change (length (L4 a0 a1)) with 4%nat.
    replace (Z.to_nat (4 * 0 + (s4 s0 s1 s2 s3 k - 4))) with (Z.to_nat (s4 s0 s1 s2 s3 k) - 4)%nat by lia. reflexivity.
Qed.
(** permute4 (N >= 4 64-bit lanes) on every instruction set and register size; missing: vectors
    of more than two 128-bit registers, for which it is wrong (below). *)
Theorem permute4_64_partial : forall A e s junk s0 s1 s2 s3, valid_arch A = true -> avail_et A e s = true ->
  e = I64 \/ e = F64 -> 0 <= s0 < 4 -> 0 <= s1 < 4 -> 0 <= s2 < 4 -> 0 <= s3 < 4 ->
  forall va, wfv s va -> (s = R128 -> length va = 2%nat) ->
  exists vr, permute4_64 A e s junk s0 s1 s2 s3 va = Ok vr /\ wfv s vr /\ length vr = length va /\
    lanes 64 s vr = grouped 4 (p_permute4 s0 s1 s2 s3) [lanes 64 s va].
Proof.
  intros A e s junk s0 s1 s2 s3 HV HA He H0 H1 H2 H3 va Wa HL.
  assert (s <> R128 -> computesS1 64 s 4 (vec_impl1 (match e with F64 => i_permute4_f64 A s s0 s1 s2 s3
                               | _ => i_permute4_64 A s s0 s1 s2 s3 end)) (p_permute4 s0 s1 s2 s3)) as HW.
  { intros Hs. apply liftS1; [destruct s; [contradiction|reflexivity..]| |].
    - inr.
    - intros a Ra. destruct He as [-> | ->]; [apply i_permute4_64_ok|apply i_permute4_f64_ok]; auto. }
  destruct s; [|apply (HW ltac:(discriminate)); assumption..].
  specialize (HL eq_refl). destruct va as [|a0 [|a1 [|? ?]]]; try discriminate HL.
  pose proof (Forall_inv Wa) as R0. pose proof (Forall_inv (Forall_inv_tail Wa)) as R1. cbn [rbits] in R0, R1.
  destruct (permute_half_ok A HV e He _ _ R0 R1 s0 s1 H0 H1) as (x & Ex & Hx & X0 & X1).
  destruct (permute_half_ok A HV e He _ _ R0 R1 s2 s3 H2 H3) as (y & Ey & Hy & Y0 & Y1).
  destruct (copy_pair_ok a0 a1 s0 s1 H0 H1) as (x' & Ex' & Hx' & X0' & X1').
  destruct (copy_pair_ok a0 a1 s2 s3 H2 H3) as (y' & Ey' & Hy' & Y0' & Y1').
  injection Ex' as <-. injection Ey' as <-.
  assert (permute4_64 A e R128 junk s0 s1 s2 s3 [a0; a1] = Ok [x; y] \/
          permute4_64 A e R128 junk s0 s1 s2 s3 [a0; a1] = Ok [copy_pair s0 s1 a0 a1; copy_pair s2 s3 a0 a1]) as HC.
  { cbn [permute4_64]. unfold permute4_pair. rewrite Ex, Ey. cbn [bind]. cbv zeta.
    generalize (copy_pair s0 s1 a0 a1), (copy_pair s2 s3 a0 a1). intros p q. clear - HV He.
    destruct He as [-> | ->]; unfold use_neon64; fam HV; rw_flags; cbn [orb andb negb]; repeat split_if; auto. }
  destruct HC as [-> | ->]; (eexists; split; [reflexivity|]; split; [apply wf2; assumption|]; split; [reflexivity|]);
  rewrite grouped_pair1, lanes2; cbn [map]; rewrite ?X0, ?X1, ?Y0, ?Y1, ?X0', ?X1', ?Y0', ?Y1'; reflexivity.
Qed.
(** With four 128-bit registers (8 lanes) the loop of permute4.h:273-277 computes the wrong
    registers, whatever the uninitialised result held. *)
Theorem permute4_64_refuted : exists va, wfv R128 va /\ length va = 4%nat /\
  forall junk vr, permute4_64 arch_sse2 I64 R128 junk 3 2 1 0 va = Ok vr ->
  lanes 64 R128 vr <> grouped 4 (p_permute4 3 2 1 0) [lanes 64 R128 va].
Proof.
  exists [0x20000000000000001; 0x40000000000000003; 0x60000000000000005; 0x80000000000000007].
  split; [repeat (apply wfv_cons; split; [split; vm_compute; [discriminate|reflexivity]|]); constructor|]. split; [reflexivity|].
  intros junk vr E V. vm_compute in E. injection E as <-. apply (f_equal (fun l => nth 6 l 0)) in V. lazy in V. discriminate V.
Qed.

(** shuffle4x2 of 64-bit lanes, where it is implemented.  Missing: vectors of more than two
    128-bit registers, and the selectors outside [ok4x2_f64] of 256-bit float64 registers, for
    which it is wrong (below). *)
Theorem shuffle4x2_64_partial : forall A e s junk u v s0 s1 s2 s3, valid_arch A = true -> avail_et A e s = true ->
  use_null A || use_sse2 A || use_neon A = true -> e = I64 \/ e = F64 ->
  0 <= s0 < 8 -> 0 <= s1 < 8 -> 0 <= s2 < 8 -> 0 <= s3 < 8 -> (e = F64 -> ok4x2_f64 A s s0 s1 s2 s3 = true) ->
  forall va vb, wfv s va -> wfv s vb -> length va = length vb -> (s = R128 -> length va = 2%nat) ->
  exists vr, shuffle4x2_64 A e s junk u v s0 s1 s2 s3 va vb = Ok vr /\ wfv s vr /\ length vr = length va /\
    lanes 64 s vr = grouped 4 (p_shuffle4x2 s0 s1 s2 s3) [lanes 64 s va; lanes 64 s vb].
Proof.
  intros A e s junk u v s0 s1 s2 s3 HV HA HI He H0 H1 H2 H3 HO va vb Wa Wb HE HL.
  unfold shuffle4x2_64. rewrite HI.
  assert (s <> R128 -> computesS2 64 s 4 (vec_impl2 (match e with F64 => i_shuffle4x2_f64 A s u v s0 s1 s2 s3
                               | _ => i_shuffle4x2_u64 A s s0 s1 s2 s3 end)) (p_shuffle4x2 s0 s1 s2 s3)) as HW.
  { intros Hs. apply liftS2; [destruct s; [contradiction|reflexivity..]| |].
    - inr.
    - intros a b Ra Rb. destruct He as [-> | ->]; [apply i_shuffle4x2_u64_ok; auto|].
      destruct s; [contradiction|apply i_shuffle4x2_f64_256|apply i_shuffle4x2_f64_512]; auto. }
  destruct s; [|apply (HW ltac:(discriminate)); assumption..].
  specialize (HL eq_refl). destruct va as [|a0 [|a1 [|? ?]]]; try discriminate HL. destruct vb as [|b0 [|b1 [|? ?]]]; try discriminate HE.
  pose proof (Forall_inv Wa) as R0. pose proof (Forall_inv (Forall_inv_tail Wa)) as R1. cbn [rbits] in R0, R1.
  pose proof (Forall_inv Wb) as Q0. pose proof (Forall_inv (Forall_inv_tail Wb)) as Q1. cbn [rbits] in Q0, Q1.
  destruct (shuffle_half_ok A HV e He _ _ R0 R1 _ _ Q0 Q1 s0 s1 H0 H1) as (x & Ex & Hx & X0 & X1).
  destruct (shuffle_half_ok A HV e He _ _ R0 R1 _ _ Q0 Q1 s2 s3 H2 H3) as (y & Ey & Hy & Y0 & Y1).
  assert (shuffle4x2_loop A e junk s0 s1 s2 s3 [a0; a1] [b0; b1] = Ok [x; y]) as ->.
  { unfold shuffle4x2_loop. cbn [length loop64 Nat.ltb Nat.leb Nat.mul Nat.add].
    unfold aget, aset, aclamp. cbn [length Nat.ltb Nat.leb nth repeat bind]. rewrite Ex, Ey. reflexivity. }
  eexists. split; [reflexivity|]. split; [apply wf2; assumption|]. split; [reflexivity|].
  rewrite !lanes2. change (grouped 4 (p_shuffle4x2 s0 s1 s2 s3) _) with
    (map (pick 4 (p_shuffle4x2 s0 s1 s2 s3) [L4 a0 a1; L4 b0 b1]) [0; 1; 2; 3]).
  cbn [map]. rewrite !pick_cat by lia. rewrite X0, X1, Y0, Y1. reflexivity.
Qed.
(** It does not exist on AltiVec and MSA. *)
Theorem shuffle4x2_64_not_implemented : forall A e s junk u v s0 s1 s2 s3 va vb, use_null A || use_sse2 A || use_neon A = false ->
  shuffle4x2_64 A e s junk u v s0 s1 s2 s3 va vb = NotImpl.
Proof. intros. unfold shuffle4x2_64. rewrite H. reflexivity. Qed.
(** Off the selectors above: (1) four 128-bit registers; (2) AVX without AVX2, float64<4>,
    shuffle4x2<4,1,6,2>: the two lanes of each half come from the other's position;
    (3) AVX-512F, float64<4>, shuffle4x2<0,1,2,4>: lane 3 is the undefined upper half of a. *)
Definition f64_a : Z := 0x4000000000000000300000000000000020000000000000001.
Definition f64_b : Z := 0x8000000000000000700000000000000060000000000000005.
Theorem shuffle4x2_64_refuted :
  (exists va vb, wfv R128 va /\ wfv R128 vb /\ length va = 4%nat /\ length vb = 4%nat /\
     forall junk u v vr, shuffle4x2_64 arch_sse2 I64 R128 junk u v 3 2 5 4 va vb = Ok vr ->
       lanes 64 R128 vr <> grouped 4 (p_shuffle4x2 3 2 5 4) [lanes 64 R128 va; lanes 64 R128 vb]) /\
  (wfv R256 [f64_a] /\ wfv R256 [f64_b] /\ ok4x2_f64 arch_avx R256 4 1 6 2 = false /\
     forall junk u v vr, shuffle4x2_64 arch_avx F64 R256 junk u v 4 1 6 2 [f64_a] [f64_b] = Ok vr ->
       lanes 64 R256 vr <> grouped 4 (p_shuffle4x2 4 1 6 2) [lanes 64 R256 [f64_a]; lanes 64 R256 [f64_b]]) /\
  (ok4x2_f64 arch_avx512f R256 0 1 2 4 = false /\
     exists junk u v vr, shuffle4x2_64 arch_avx512f F64 R256 junk u v 0 1 2 4 [f64_a] [f64_b] = Ok vr /\
       lanes 64 R256 vr <> grouped 4 (p_shuffle4x2 0 1 2 4) [lanes 64 R256 [f64_a]; lanes 64 R256 [f64_b]]).
Proof.
  assert (forall s x, 0 <= x < 2 ^ rbits s -> wfv s [x]) as W by (intros; apply wfv_cons; split; [assumption|constructor]).
  split; [|split].
  - exists [0x20000000000000001; 0x40000000000000003; 0x60000000000000005; 0x80000000000000007].
    exists [0x20000000000000011; 0x40000000000000013; 0x60000000000000015; 0x80000000000000017].
    split; [repeat (apply wfv_cons; split; [split; vm_compute; [discriminate|reflexivity]|]); constructor|].
    split; [repeat (apply wfv_cons; split; [split; vm_compute; [discriminate|reflexivity]|]); constructor|].
    split; [reflexivity|]. split; [reflexivity|].
    intros junk u v vr E V. vm_compute in E. injection E as <-. apply (f_equal (fun l => nth 6 l 0)) in V. lazy in V. discriminate V.
  - split; [apply W; split; vm_compute; [discriminate|reflexivity]|]. split; [apply W; split; vm_compute; [discriminate|reflexivity]|].
    split; [vm_compute; reflexivity|].
    intros junk u v vr E V. vm_compute in E. injection E as <-. vm_compute in V. discriminate V.
  - split; [vm_compute; reflexivity|]. exists 0, 0, 0. eexists. split; [vm_compute; reflexivity|]. vm_compute. discriminate.
Qed.
Example perm64_case :
  permute4_64 arch_sse2 I64 R128 0 2 0 3 3 [0x20000000000000001; 0x40000000000000003] = Ok [0x10000000000000003; 0x40000000000000004] /\
  permute4_64 arch_avx F64 R256 0 2 0 3 3 [f64_a] = Ok [0x4000000000000000400000000000000010000000000000003] /\
  permute4_64 arch_avx512f F64 R256 0 2 0 3 3 [f64_a] = Ok [0x4000000000000000400000000000000010000000000000003] /\
  permute4_64 arch_altivec F64 R128 0 2 0 3 3 [0x20000000000000001; 0x40000000000000003] = Ok [0x10000000000000003; 0x40000000000000004] /\
  shuffle4x2_64 arch_neon64 F64 R128 0 0 0 2 5 7 3 [0x20000000000000001; 0x40000000000000003] [0x60000000000000005; 0x80000000000000007]
    = Ok [0x60000000000000003; 0x40000000000000008] /\
  shuffle4x2_64 arch_avx F64 R256 0 0 0 2 5 7 3 [f64_a] [f64_b] = Ok [0x4000000000000000800000000000000060000000000000003] /\
  ok4x2_f64 arch_avx R256 2 5 7 3 = true.
Proof.
  split; [vm_compute; reflexivity|]. split; [vm_compute; reflexivity|]. split; [vm_compute; reflexivity|].
  split; [vm_compute; reflexivity|]. split; [vm_compute; reflexivity|]. split; vm_compute; reflexivity.
Qed.
