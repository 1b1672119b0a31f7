(** C30: bitonic_sort sorts. *)
From Verif Require Import Proof.BitonicP Model.Bitonic Spec.Sorted Thm.T_MinMax Thm.T_Shuffle Thm.T_Shuffle2 Proof.MinMaxP.

Section I.
  Variables (A : arch) (sg : bool).
  Hypothesis HV : valid_arch A = true.
  Let s := s32x8 A.
  Let D x := 0 <= x < 2 ^ 32.
  Let fmn := if sg then s_min_s 32 else s_min_u.
  Let fmx := if sg then s_max_s 32 else s_max_u.
  Lemma s_av : avail_int A 32 s = true.
  Proof. unfold s, s32x8. destruct (use_avx2 A) eqn:E; auto. Qed.
  Lemma s_two : s = R128 \/ s = R256.
  Proof. unfold s, s32x8. destruct (use_avx2 A); auto. Qed.
  Lemma mm32 : minmax_exists A W32 s. Proof. intros H. discriminate H. Qed.
  Lemma c_mn : computes2 32 s (min A sg W32 s) fmn.
  Proof.
    unfold fmn. destruct sg; [apply (min_signed_partial A W32 s HV s_av mm32)|apply (min_unsigned_partial A W32 s HV s_av mm32)].
  Qed.
  Lemma c_mx : computes2 32 s (max A sg W32 s) fmx.
  Proof.
    unfold fmx. destruct sg; [apply (max_signed_partial A W32 s HV s_av mm32)|apply (max_unsigned_partial A W32 s HV s_av mm32)].
  Qed.
  Lemma k_mn x y : D x -> D y -> D (fmn x y) /\ value32 sg (fmn x y) = Z.min (value32 sg x) (value32 sg y).
  Proof.
    intros Hx Hy. unfold D, fmn, value32 in *. destruct sg.
    - unfold s_min_s. split; [apply Z.mod_pos_bound; lia|]. pose proof (sgn_range 32 x ltac:(lia)). pose proof (sgn_range 32 y ltac:(lia)).
      fold (wrap 32 (Z.min (sgn 32 x) (sgn 32 y))). rewrite sgn_wrap by lia. apply sgn_id; lia.
    - unfold s_min_u. split; lia.
  Qed.
  Lemma k_mx x y : D x -> D y -> D (fmx x y) /\ value32 sg (fmx x y) = Z.max (value32 sg x) (value32 sg y).
  Proof.
    intros Hx Hy. unfold D, fmx, value32 in *. destruct sg.
    - unfold s_max_s. split; [apply Z.mod_pos_bound; lia|]. pose proof (sgn_range 32 x ltac:(lia)). pose proof (sgn_range 32 y ltac:(lia)).
      fold (wrap 32 (Z.max (sgn 32 x) (sgn 32 y))). rewrite sgn_wrap by lia. apply sgn_id; lia.
    - unfold s_max_u. split; lia.
  Qed.
  Lemma zip_D g la lb : (forall x y, D x -> D y -> D (g x y)) -> Forall D la -> Forall D lb -> Forall D (zipw g la lb).
  Proof.
    intros Hg HA. revert lb. induction HA; intros lb HB; cbn; [constructor|]. destruct HB; constructor; auto.
  Qed.
  Lemma h_mn va vb la lb : okv s D va la -> okv s D vb lb -> exists vr, min A sg W32 s va vb = Ok vr /\ okv s D vr (zipw fmn la lb).
  Proof.
    intros (W & L & E & HD) (W' & L' & E' & HD'). destruct (c_mn va vb W W' ltac:(lia)) as (vr & E1 & W1 & L1 & E2).
    exists vr. split; auto. split; auto. split; [lia|]. subst la lb. split; auto. apply zip_D; auto. intros. apply k_mn; auto.
  Qed.
  Lemma h_mx va vb la lb : okv s D va la -> okv s D vb lb -> exists vr, max A sg W32 s va vb = Ok vr /\ okv s D vr (zipw fmx la lb).
  Proof.
    intros (W & L & E & HD) (W' & L' & E' & HD'). destruct (c_mx va vb W W' ltac:(lia)) as (vr & E1 & W1 & L1 & E2).
    exists vr. split; auto. split; auto. split; [lia|]. subst la lb. split; auto. apply zip_D; auto. intros. apply k_mx; auto.
  Qed.
  Lemma h_p4 s0 s1 s2 s3 : 0 <= s0 < 4 -> 0 <= s1 < 4 -> 0 <= s2 < 4 -> 0 <= s3 < 4 ->
    computesS1 32 s 4 (permute4 A I32 s s0 s1 s2 s3) (p_permute4 s0 s1 s2 s3).
  Proof. intros. apply (permute4_spec A I32 s); auto. apply s_av. Qed.
  Lemma h_s4 s0 s1 s2 s3 : 0 <= s0 < 8 -> 0 <= s1 < 8 -> 0 <= s2 < 8 -> 0 <= s3 < 8 ->
    computesS2 32 s 4 (shuffle4x2 A I32 s s0 s1 s2 s3) (p_shuffle4x2 s0 s1 s2 s3).
  Proof. intros. apply (shuffle4x2_spec A I32 s); auto. apply s_av. Qed.
  Lemma mk_okv v : wfv s v -> length (lanes 32 s v) = 8%nat -> okv s D v (lanes 32 s v).
  Proof.
    intros W L. split; auto. split.
    - rewrite lanes_length in L. unfold len. destruct s_two as [E|E]; rewrite E in *; [change (nl 32 (rbits R128)) with 4%nat in L|change (nl 32 (rbits R256)) with 8%nat in L]; lia.
    - split; auto. unfold lanes, elems. rewrite Forall_forall. intros x Hx. apply in_flat_map in Hx as (r & _ & Hr).
      apply in_map_iff in Hr as (i & <- & _). apply lane_range. lia.
  Qed.
  Lemma back l : Forall D l -> map (wrap 32) (map (value32 sg) l) = l.
  Proof.
    intros H. rewrite map_map. rewrite <- (map_id l) at 2. apply map_ext_in. intros x Hx. rewrite Forall_forall in H.
    specialize (H x Hx). unfold D in H. unfold value32. destruct sg; [rewrite wrap_sgn by lia; apply wrap_small; lia|apply wrap_small; lia].
  Qed.
  Lemma perm_back l m : Forall D l -> Forall D m -> Permutation (map (value32 sg) l) (map (value32 sg) m) -> Permutation l m.
  Proof. intros Hl Hm H. rewrite <- (back l), <- (back m) by auto. apply Permutation_map, H. Qed.
  Lemma asc1 va : wfv s va -> length (lanes 32 s va) = 8%nat ->
    exists vr, bitonic_sort_asc A sg va = Ok vr /\ wfv s vr /\ length vr = length va /\ sorts_asc (value32 sg) (lanes 32 s va) (lanes 32 s vr).
  Proof.
    intros W L. pose proof (mk_okv va W L) as Ho.
    destruct (bsort_asc_ok s D fmn fmx s_two _ _ _ _ h_mn h_mx h_p4 h_s4 (value32 sg) k_mn k_mx va _ Ho) as (vr & lr & E & (W' & L' & E' & HD) & P & S).
    exists vr. split; [exact E|]. split; auto. destruct Ho as (_ & L2 & _ & HD'). split; [lia|]. rewrite E'. split; auto. apply perm_back; auto.
  Qed.
  Lemma dec1 va : wfv s va -> length (lanes 32 s va) = 8%nat ->
    exists vr, bitonic_sort_dec A sg va = Ok vr /\ wfv s vr /\ length vr = length va /\ sorts_dec (value32 sg) (lanes 32 s va) (lanes 32 s vr).
  Proof.
    intros W L. pose proof (mk_okv va W L) as Ho.
    destruct (bsort_dec_ok s D fmn fmx s_two _ _ _ _ h_mn h_mx h_p4 h_s4 (value32 sg) k_mn k_mx va _ Ho) as (vr & lr & E & (W' & L' & E' & HD) & P & S).
    exists vr. split; [exact E|]. split; auto. destruct Ho as (_ & L2 & _ & HD'). split; [lia|]. rewrite E'. split; auto. apply perm_back; auto.
  Qed.
  Lemma asc2 va vb : wfv s va -> wfv s vb -> length (lanes 32 s va) = 8%nat -> length (lanes 32 s vb) = 8%nat ->
    exists ra rb, bitonic_sort2_asc A sg va vb = Ok (ra, rb) /\ wfv s ra /\ wfv s rb /\ length ra = length va /\ length rb = length vb /\
      sorts_asc (value32 sg) (lanes 32 s va ++ lanes 32 s vb) (lanes 32 s ra ++ lanes 32 s rb).
  Proof.
    intros W W' L L'. pose proof (mk_okv va W L) as Ho. pose proof (mk_okv vb W' L') as Ho'.
    destruct (bsort2_asc_ok s D fmn fmx s_two _ _ _ _ h_mn h_mx h_p4 h_s4 (value32 sg) k_mn k_mx va vb _ _ Ho Ho')
      as (r0 & r1 & m0 & m1 & E & (W0 & L0 & E0 & D0) & (W1 & L1 & E1 & D1) & P & S).
    exists r0, r1. split; [exact E|]. destruct Ho as (_ & L2 & _ & HD). destruct Ho' as (_ & L2' & _ & HD').
    split; auto. split; auto. split; [lia|]. split; [lia|]. rewrite E0, E1. split; auto.
    apply perm_back; auto; apply Forall_app; auto.
  Qed.
  Lemma dec2 va vb : wfv s va -> wfv s vb -> length (lanes 32 s va) = 8%nat -> length (lanes 32 s vb) = 8%nat ->
    exists ra rb, bitonic_sort2_dec A sg va vb = Ok (ra, rb) /\ wfv s ra /\ wfv s rb /\ length ra = length va /\ length rb = length vb /\
      sorts_dec (value32 sg) (lanes 32 s va ++ lanes 32 s vb) (lanes 32 s ra ++ lanes 32 s rb).
  Proof.
    intros W W' L L'. pose proof (mk_okv va W L) as Ho. pose proof (mk_okv vb W' L') as Ho'.
    destruct (bsort2_dec_ok s D fmn fmx s_two _ _ _ _ h_mn h_mx h_p4 h_s4 (value32 sg) k_mn k_mx va vb _ _ Ho Ho')
      as (r0 & r1 & m0 & m1 & E & (W0 & L0 & E0 & D0) & (W1 & L1 & E1 & D1) & P & S).
    exists r0, r1. split; [exact E|]. destruct Ho as (_ & L2 & _ & HD). destruct Ho' as (_ & L2' & _ & HD').
    split; auto. split; auto. split; [lia|]. split; [lia|]. rewrite E0, E1. split; auto.
    apply perm_back; auto; apply Forall_app; auto.
  Qed.
End I.

(** int32<8> (sg = true) and uint32<8> (sg = false), one and two registers *)
Theorem bitonic_sort_asc_spec : forall A sg va, valid_arch A = true ->
  let s := s32x8 A in wfv s va -> length (lanes 32 s va) = 8%nat ->
  exists vr, bitonic_sort_asc A sg va = Ok vr /\ wfv s vr /\ length vr = length va /\
    sorts_asc (value32 sg) (lanes 32 s va) (lanes 32 s vr).
Proof. intros A sg va HV s. apply asc1; auto. Qed.
Theorem bitonic_sort_dec_spec : forall A sg va, valid_arch A = true ->
  let s := s32x8 A in wfv s va -> length (lanes 32 s va) = 8%nat ->
  exists vr, bitonic_sort_dec A sg va = Ok vr /\ wfv s vr /\ length vr = length va /\
    sorts_dec (value32 sg) (lanes 32 s va) (lanes 32 s vr).
Proof. intros A sg va HV s. apply dec1; auto. Qed.
Theorem bitonic_sort2_asc_spec : forall A sg va vb, valid_arch A = true ->
  let s := s32x8 A in wfv s va -> wfv s vb -> length (lanes 32 s va) = 8%nat -> length (lanes 32 s vb) = 8%nat ->
  exists ra rb, bitonic_sort2_asc A sg va vb = Ok (ra, rb) /\ wfv s ra /\ wfv s rb /\
    length ra = length va /\ length rb = length vb /\
    sorts_asc (value32 sg) (lanes 32 s va ++ lanes 32 s vb) (lanes 32 s ra ++ lanes 32 s rb).
Proof. intros A sg va vb HV s. apply asc2; auto. Qed.
Theorem bitonic_sort2_dec_spec : forall A sg va vb, valid_arch A = true ->
  let s := s32x8 A in wfv s va -> wfv s vb -> length (lanes 32 s va) = 8%nat -> length (lanes 32 s vb) = 8%nat ->
  exists ra rb, bitonic_sort2_dec A sg va vb = Ok (ra, rb) /\ wfv s ra /\ wfv s rb /\
    length ra = length va /\ length rb = length vb /\
    sorts_dec (value32 sg) (lanes 32 s va ++ lanes 32 s vb) (lanes 32 s ra ++ lanes 32 s rb).
Proof. intros A sg va vb HV s. apply dec2; auto. Qed.
Example bitonic_case :
  bitonic_sort_asc arch_sse2 true [0x00000004fffffffe0000000900000001; 0x00000003000000078000000000000005] =
    Ok [0x0000000300000001fffffffe80000000; 0x00000009000000070000000500000004] /\
  bitonic_sort_dec arch_avx2 false [0x0000000300000007800000000000000500000004fffffffe0000000900000001] =
    Ok [0x00000001000000030000000400000005000000070000000980000000fffffffe].
Proof. split; vm_compute; reflexivity. Qed.
