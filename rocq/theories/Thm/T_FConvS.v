(** C56: conversions of floating-point numbers to 8- and 16-bit integers. *)
From Verif Require Import Proof.FConvP Proof.FConvP2 Proof.FConvP3 Proof.ConvertP Proof.NarrowP2 Proof.FConv64P5 Proof.FConvI64P2 Model.FConvS Thm.T_Convert Thm.T_Narrow Thm.T_FConv Thm.T_FConv64.
From Coq Require Import Lia.

Lemma then_narrow A w T0 T' w' junk rs dom g op : valid_arch A = true -> vsize T' -> w' = 8 \/ w' = 16 -> length junk = vlen A w' T' -> narrow_missing A 32 w' T' = false ->
  conv_rel w 32 T0 (T' * (32 / w')) rs (vreg A 32 (T' * (32 / w'))) op dom (is g) ->
  conv_rel w w' T0 T' rs (vreg A w' T') (fun va => let* v := op va in to_int_narrow A junk 32 w' (T' * (32 / w')) v) dom (is (fun x => g x mod 2 ^ w')).
Proof.
  intros HV HT Hw HJ HM H va Wa La Hd. destruct (H va Wa La Hd) as (v & Ev & Wv & Lv & HF).
  assert (HP : npair 32 w') by (unfold npair, wpair; destruct Hw as [-> | ->]; auto).
  destruct (to_int_narrow_partial A 32 w' T' junk HV HP HT HJ HM v (conj Wv Lv)) as (vr & Er & [Wr Lr] & EL).
  assert (ET : T' * (32 / w') * w' / 32 = T').
  { destruct Hw as [-> | ->]; [change (32 / 8) with 4|change (32 / 16) with 2]; [replace (T' * 4 * 8) with (T' * 32) by ring|replace (T' * 2 * 16) with (T' * 32) by ring]; apply Z.div_mul; discriminate. }
  rewrite ET in *. exists vr. cbn beta. rewrite Ev. cbn [bind]. split; [exact Er|]. split; [exact Wr|]. split; [exact Lr|].
  unfold tlanes in EL. rewrite EL. apply F2_is_map in HF. rewrite HF, map_map. clear. induction (lanes w rs va) as [|x l IH]; cbn [map]; constructor; auto.
  unfold is, s_truncate. reflexivity.
Qed.
Lemma conv_rel_imp w w' T T' rs rs' op dom (P Q : Z -> Z -> Prop) : (forall x y, P x y -> Q x y) -> conv_rel w w' T T' rs rs' op dom P -> conv_rel w w' T T' rs rs' op dom Q.
Proof.
  intros HPQ H va Wa La Hd. destruct (H va Wa La Hd) as (vr & Ev & Wr & Lr & HF). exists vr. split; auto. split; auto. split; auto.
  clear - HF HPQ. induction HF; constructor; auto.
Qed.
Lemma mod_mod_small w' x : w' = 8 \/ w' = 16 -> x mod 2 ^ 32 mod 2 ^ w' = x mod 2 ^ w'.
Proof. intros [-> | ->]; symmetry; apply Znumtheory.Zmod_div_mod; try reflexivity; [exists (2 ^ 24)|exists (2 ^ 16)]; reflexivity. Qed.
Lemma wide_ok w' T' : vsize T' -> w' = 8 \/ w' = 16 -> vsize (T' * (32 / w')).
Proof. intros [k ->] [-> | ->]; [change (32 / 8) with 4; exists (S (S k))|change (32 / 16) with 2; exists (S k)]; rewrite !Nat2Z.inj_succ, !Z.pow_succ_r by lia; ring. Qed.

(** The integer part modulo 2^w', whenever it is an int32_t: in particular the integer part of every
    number in the range of the result. *)
Theorem to_small_float_partial : forall A w' T' junk, valid_arch A = true -> vsize T' -> w' = 8 \/ w' = 16 -> length junk = vlen A w' T' -> narrow_missing A 32 w' T' = false ->
  conv_rel 32 w' (T' * (32 / w')) T' (vregf A (T' * (32 / w'))) (vreg A w' T') (to_small_f A junk w' (T' * (32 / w'))) fits_s32 (is (fun x => f_int 32 x mod 2 ^ w')).
Proof.
  intros A w' T' junk HV HT Hw HJ HM. pose proof (to_int32_float_spec A _ HV (wide_ok w' T' HT Hw)) as H.
  apply (conv_rel_imp _ _ _ _ _ _ _ _ (is (fun x => f_int 32 x mod 2 ^ 32 mod 2 ^ w'))); [intros x y ->; apply mod_mod_small; exact Hw|].
  exact (then_narrow A 32 _ T' w' junk _ _ _ _ HV HT Hw HJ HM H).
Qed.
Theorem to_small_double_partial : forall A w' T' junk, valid_arch A = true -> vsize T' -> w' = 8 \/ w' = 16 -> length junk = vlen A w' T' -> narrow_missing A 32 w' T' = false ->
  conv_rel 64 w' (2 * (T' * (32 / w'))) T' (vregf A (2 * (T' * (32 / w')))) (vreg A w' T') (to_small_d A junk w' (T' * (32 / w'))) dfits_s32 (is (fun x => f_int 64 x mod 2 ^ w')).
Proof.
  intros A w' T' junk HV HT Hw HJ HM. pose proof (to_int32_double_spec A _ HV (wide_ok w' T' HT Hw)) as H.
  apply (conv_rel_imp _ _ _ _ _ _ _ _ (is (fun x => f_int 64 x mod 2 ^ 32 mod 2 ^ w'))); [intros x y ->; apply mod_mod_small; exact Hw|].
  exact (then_narrow A 64 _ T' w' junk _ _ _ _ HV HT Hw HJ HM H).
Qed.
(** On x86 numbers beyond int32_t and NaN give 0. *)
Theorem to_small_float_x86_partial : forall A w' T' junk, valid_arch A = true -> use_sse2 A = true -> vsize T' -> w' = 8 \/ w' = 16 -> length junk = vlen A w' T' -> narrow_missing A 32 w' T' = false ->
  conv_rel 32 w' (T' * (32 / w')) T' (vregf A (T' * (32 / w'))) (vreg A w' T') (to_small_f A junk w' (T' * (32 / w'))) all_lanes (is (fun x => if fits_s32 x then f_int 32 x mod 2 ^ w' else 0)).
Proof.
  intros A w' T' junk HV HX HT Hw HJ HM. pose proof (to_int32_float_x86_spec A _ HV HX (wide_ok w' T' HT Hw)) as H.
  apply (conv_rel_imp _ _ _ _ _ _ _ _ (is (fun x => (if fits_s32 x then f_int 32 x mod 2 ^ 32 else 0x80000000) mod 2 ^ w'))).
  - intros x y ->. unfold is. destruct (fits_s32 x); [apply mod_mod_small; exact Hw|destruct Hw as [-> | ->]; reflexivity].
  - exact (then_narrow A 32 _ T' w' junk _ _ _ _ HV HT Hw HJ HM H).
Qed.
Theorem to_small_double_x86_partial : forall A w' T' junk, valid_arch A = true -> use_sse2 A = true -> vsize T' -> w' = 8 \/ w' = 16 -> length junk = vlen A w' T' -> narrow_missing A 32 w' T' = false ->
  conv_rel 64 w' (2 * (T' * (32 / w'))) T' (vregf A (2 * (T' * (32 / w')))) (vreg A w' T') (to_small_d A junk w' (T' * (32 / w'))) all_lanes (is (fun x => if dfits_s32 x then f_int 64 x mod 2 ^ w' else 0)).
Proof.
  intros A w' T' junk HV HX HT Hw HJ HM. pose proof (to_int32_double_x86_spec A _ HV (wide_ok w' T' HT Hw) HX) as H.
  apply (conv_rel_imp _ _ _ _ _ _ _ _ (is (fun x => (if dfits_s32 x then f_int 64 x mod 2 ^ 32 else 0x80000000) mod 2 ^ w'))).
  - intros x y ->. unfold is. destruct (dfits_s32 x); [apply mod_mod_small; exact Hw|destruct Hw as [-> | ->]; reflexivity].
  - exact (then_narrow A 64 _ T' w' junk _ _ _ _ HV HT Hw HJ HM H).
Qed.
(** 64-bit ARM, AltiVec, POWER and MIPS: clamped to int32_t first, then cut *)
Theorem to_small_float_saturating_partial : forall A w' T' junk, valid_arch A = true -> use_sse2 A = false -> use_null A = false -> use_neon_no_flt_sp A = false -> vsize T' -> w' = 8 \/ w' = 16 ->
  length junk = vlen A w' T' -> narrow_missing A 32 w' T' = false ->
  conv_rel 32 w' (T' * (32 / w')) T' (vregf A (T' * (32 / w'))) (vreg A w' T') (to_small_f A junk w' (T' * (32 / w'))) all_lanes
    (is (fun x => if f_nan 32 x then 0 else Z.max (- 2 ^ 31) (Z.min (2 ^ 31 - 1) (f_int 32 x)) mod 2 ^ w')).
Proof.
  intros A w' T' junk HV HX HN HS HT Hw HJ HM. pose proof (to_int32_float_saturates A _ HV HX HN HS (wide_ok w' T' HT Hw)) as H.
  assert (HG : conv_rel 32 32 (T' * (32 / w')) (T' * (32 / w')) (vregf A (T' * (32 / w'))) (vreg A 32 (T' * (32 / w'))) (to_int32_f A (T' * (32 / w'))) all_lanes
     (is (fun x => if f_nan 32 x then 0 else Z.max (- 2 ^ 31) (Z.min (2 ^ 31 - 1) (f_int 32 x)) mod 2 ^ 32))).
  { intros va Wa La Hd. destruct (H va Wa La Hd) as (vr & Ev & Wr & Lr & HF). exists vr. split; auto. split; auto. split; auto.
    assert (HR : Forall (fun x => 0 <= x < 2 ^ 32) (lanes 32 (vreg A 32 (T' * (32 / w'))) vr)).
    { apply Forall_forall. intros x Hx. unfold lanes in Hx. apply in_flat_map in Hx as (a & _ & Hx). apply in_elems in Hx; [auto|lia]. }
    clear - HF HR. revert HR. induction HF as [|x y l r Hxy HF IH]; intros HR; constructor; inversion HR; subst; auto.
    unfold is. destruct (f_nan 32 x); [exact Hxy|]. rewrite <- Hxy. change (y = wrap 32 (sgn 32 y)). rewrite wrap_sgn by lia. symmetry. apply wrap_small. auto. }
  apply (conv_rel_imp _ _ _ _ _ _ _ _ (is (fun x => (if f_nan 32 x then 0 else Z.max (- 2 ^ 31) (Z.min (2 ^ 31 - 1) (f_int 32 x)) mod 2 ^ 32) mod 2 ^ w'))).
  - intros x y ->. unfold is. destruct (f_nan 32 x); [destruct Hw as [-> | ->]; reflexivity|apply mod_mod_small; exact Hw].
  - exact (then_narrow A 32 _ T' w' junk _ _ _ _ HV HT Hw HJ HM HG).
Qed.
(** Without SIMD a number beyond int32_t is undefined behaviour; uint8_t from 32 floats or more is wrong on AVX2 as
    for integers: see to_uint8_u32_avx2_refuted. *)
Theorem to_small_float_refuted :
  to_small_f arch_null [0] 16 256 [0x4f000000; 0] = UB /\ to_small_f arch_sse2 [0] 16 256 [0x4f000000; 0] = Ok [0].
Proof. split; vm_compute; reflexivity. Qed.

(** Concrete cases: 300.7, -2.75, -129 and 65535 as uint8_t and as int16_t *)
Example fconvs_case :
  narrow_missing arch_sse2 32 8 128 = false /\ length [0] = vlen arch_sse2 8 128 /\
  forallb fits_s32 (lanes 32 R128 [0x477fff00c3010000c03000004396599a]) = true /\
  to_small_f arch_sse2 [0] 8 512 [0x477fff00c3010000c03000004396599a; 0; 0; 0] = Ok [0xff7ffe2c] /\
  to_small_f arch_neon64 [0] 16 256 [0x477fff00c3010000c03000004396599a; 0] = Ok [0xffffff7ffffe012c].
Proof. split; [reflexivity|]. split; [reflexivity|]. split; [vm_compute; reflexivity|]. split; vm_compute; reflexivity. Qed.
