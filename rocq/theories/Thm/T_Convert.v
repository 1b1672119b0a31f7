(** C32: widening conversions; C21: split and combine. *)
From Verif Require Import Model.ConvApi Proof.ConvertP Proof.ConvertP2 Proof.ConvertP3 Proof.ConvertP4 Proof.SplitP.

Lemma converts_same A w T sg : lw w -> converts A w w T (fun va => Ok va) (s_extend sg w w).
Proof.
  intros Hw va [Hv Hl]. exists va. assert (0 < w) by (destruct Hw as [->|[->|[->| ->]]]; lia).
  rewrite Z.div_mul by lia. split; [reflexivity|]. split; [split; auto|].
  assert (wok w (rbits (vreg A w T)) = true) as Hk by (apply lw_ok; auto; destruct (vreg A w T); cbn; auto).
  unfold tlanes, lanes. clear Hl. induction va as [|a va IH]; [reflexivity|]. cbn [flat_map]. rewrite map_app, <- IH by (apply wfv_cons in Hv; tauto).
  f_equal. unfold elems. rewrite map_map. apply map_ext. intros i. unfold s_extend.
  pose proof (lane_range w (Z.of_nat i) a ltac:(lia)). destruct sg; auto.
  fold (wrap w (sgn w (lane w (Z.of_nat i) a))). rewrite wrap_sgn by lia. rewrite wrap_small; auto.
Qed.

Ltac wf_tac := repeat first [apply wfv_cons; split; [split; vm_compute; [discriminate|reflexivity]|] | apply Forall_nil].
(** C32: every widening or same-width conversion between integer vectors of any length
    keeps each lane's value: signed sources are sign-extended, unsigned ones zero-extended.
    Missing: AVX512F without AVX512BW when a 16-bit or 8-bit vector of more than 512 bits is
    converted to 64-bit lanes; there the claim is false, see below. *)
Theorem to_int_widen_spec_partial : forall A sg w w' T, valid_arch A = true -> vsize T ->
  (w = 8 \/ w = 16 \/ w = 32 \/ w = 64) -> (w' = 16 \/ w' = 32 \/ w' = 64) -> w <= w' ->
  (use_avx512f A = true -> use_avx512bw A = false -> w < 32 -> w' = 64 -> T <= 512) ->
  converts A w w' T (to_int_widen A sg w w' T) (s_extend sg w w').
Proof.
  intros A sg w w' T HV HT Hw Hw' Hle Hf.
  assert (w < 32 -> w' = 64 -> f_not_bw A = true -> T <= 512) as Hf'.
  { unfold f_not_bw. intros ? ? Hb. apply andb_prop in Hb as [? Hb]. apply Bool.negb_true_iff in Hb. auto. }
  unfold to_int_widen.
  destruct Hw as [-> |[-> |[-> | ->]]], Hw' as [-> |[-> | ->]]; try lia; cbn [Z.eqb Pos.eqb andb].
  - apply ext_8_16_ok; auto.
  - apply ext_8_32_ok; auto.
  - apply ext_8_64_ok; auto. apply Hf'; lia.
  - apply converts_same. unfold lw; auto.
  - apply ext_16_32_ok; auto.
  - apply ext_16_64_ok; auto. apply Hf'; lia.
  - apply converts_same. unfold lw; auto.
  - apply ext_32_64_ok; auto.
  - apply converts_same. unfold lw; auto.
Qed.
(** On AVX512F without AVX512BW a vector of 64 16-bit numbers (four 256-bit registers) is
    converted to 64-bit numbers in the wrong order. *)
Definition cv_src : vec := map (fun b => pack 16 256 (fun i => 16 * b + i)) [0; 1; 2; 3].
Theorem to_int_widen_avx512f_refuted :
  valid_arch arch_avx512f = true /\ vsize 1024 /\ typed arch_avx512f 16 1024 cv_src /\
  tlanes arch_avx512f 16 1024 cv_src = map Z.of_nat (seq 0 64) /\
  exists vr, to_int_widen arch_avx512f false 16 64 1024 cv_src = Ok vr /\
    tlanes arch_avx512f 64 4096 vr <> map (s_extend false 16 64) (tlanes arch_avx512f 16 1024 cv_src).
Proof.
  split; [reflexivity|]. split; [exists 3%nat; reflexivity|].
  split. { split; [|reflexivity]. unfold cv_src. cbn [map]. wf_tac. }
  assert (tlanes arch_avx512f 16 1024 cv_src = map Z.of_nat (seq 0 64)) as E by (vm_cast_no_check (eq_refl (map Z.of_nat (seq 0 64)))).
  split; [exact E|].
  assert (match to_int_widen arch_avx512f false 16 64 1024 cv_src with
          | Ok vr => nth 16 (tlanes arch_avx512f 64 4096 vr) 0 =? 8 | _ => false end = true) as H
    by (vm_cast_no_check (eq_refl true)).
  destruct (to_int_widen arch_avx512f false 16 64 1024 cv_src) as [vr| |]; try discriminate H.
  exists vr. split; [reflexivity|]. intros Hc. rewrite Hc, E in H. discriminate H.
Qed.

(** C21: the two halves in order; joining. *)
Theorem split_int_spec : forall A w T, (w = 8 \/ w = 16 \/ w = 32 \/ w = 64) -> vsize T ->
  splits w (2 * T) (vreg A w) (split_int A w (2 * T)).
Proof. intros A w T Hw HT. apply i_split_ok; auto. apply layout_int. Qed.
Theorem split_flt_spec : forall A w T, (w = 32 \/ w = 64) -> vsize T ->
  splits w (2 * T) (vregf A) (split_flt A (2 * T)).
Proof. intros A w T Hw HT. apply i_split_ok; [unfold lw; tauto|auto|apply layout_flt]. Qed.
Theorem combine_int_spec : forall A w T, (w = 8 \/ w = 16 \/ w = 32 \/ w = 64) -> vsize T ->
  joins w T (vreg A w) (combine_int A w T).
Proof. intros A w T Hw HT. apply i_combine_ok; auto. apply layout_int. Qed.
Theorem combine_flt_spec : forall A w T, (w = 32 \/ w = 64) -> vsize T ->
  joins w T (vregf A) (combine_flt A T).
Proof. intros A w T Hw HT. apply i_combine_ok; [unfold lw; tauto|auto|apply layout_flt]. Qed.
(** joining two halves and splitting gives lanes equal to the halves' lanes *)
Theorem combine_split_roundtrip : forall A w T va vb, (w = 8 \/ w = 16 \/ w = 32 \/ w = 64) -> vsize T ->
  typed A w T va -> typed A w T vb ->
  exists vr v1 v2, combine_int A w T va vb = Ok vr /\ split_int A w (2 * T) vr = Ok (v1, v2) /\
    tlanes A w T v1 = tlanes A w T va /\ tlanes A w T v2 = tlanes A w T vb.
Proof.
  intros A w T va vb Hw HT [Wa La] [Wb Lb].
  destruct (combine_int_spec A w T Hw HT va vb Wa La Wb Lb) as (vr & Er & [Wr Lr] & Hr).
  destruct (split_int_spec A w T Hw HT vr Wr Lr) as (v1 & v2 & Es & [W1 L1] & [W2 L2] & Hs).
  exists vr, v1, v2. split; auto. split; auto.
  replace (2 * T / 2) with T in * by (rewrite Z.mul_comm, Z.div_mul; lia).
  rewrite Hr in Hs. unfold tlanes.
  assert (length v1 = length va) as HL by (pose proof (rb_pos (vreg A w T)); nia).
  assert (forall u v : vec, length u = length v -> length (lanes w (vreg A w T) u) = length (lanes w (vreg A w T) v)) as HLL.
  { induction u as [|x u IH]; destruct v as [|y v]; cbn [length]; try discriminate; auto. intros Huv. injection Huv as Huv.
    unfold lanes in *. cbn [flat_map]. rewrite !app_length, !elems_length, (IH v Huv). reflexivity. }
  assert (forall (p q p' q' : list Z), p ++ q = p' ++ q' -> length p = length p' -> p = p' /\ q = q') as App.
  { induction p as [|x p IH]; destruct p' as [|y p']; cbn; intros q' E HH; try discriminate; auto.
    injection E as -> E. injection HH as HH. destruct (IH _ _ _ E HH) as [-> ->]. auto. }
  destruct (App _ _ _ _ Hs (HLL _ _ (eq_sym HL))) as [-> ->]. auto.
Qed.

(** Concrete cases. *)
Example convert_case :
  typed arch_sse2 8 128 [0x0f0e0d0c0b0a090807060504ff800100] /\
  (exists v, to_int_widen arch_sse2 true 8 32 128 [0x0f0e0d0c0b0a090807060504ff800100] = Ok v /\
     tlanes arch_sse2 32 512 v = [0; 1; 0xffffff80; 0xffffffff; 4; 5; 6; 7; 8; 9; 10; 11; 12; 13; 14; 15]) /\
  (exists v, to_int_widen arch_avx2 false 8 16 256 [0x0f0e0d0c0b0a090807060504ff800100] = Ok v /\ length v = 2%nat) /\
  split_int arch_avx2 32 256 [2 ^ 200 + 5] = Ok ([5], [2 ^ 72]) /\
  split_int arch_neon32 32 256 [3; 4] = Ok ([3], [4]) /\
  combine_int arch_avx2 32 128 [5] [2 ^ 72] = Ok [2 ^ 200 + 5].
Proof.
  split. { split; [|reflexivity]. wf_tac. }
  split. { eexists. split; [vm_compute; reflexivity|vm_compute; reflexivity]. }
  split. { eexists. split; [vm_compute; reflexivity|vm_compute; reflexivity]. }
  split; [vm_compute; reflexivity|]. split; vm_compute; reflexivity.
Qed.
