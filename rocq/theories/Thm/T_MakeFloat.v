(** C58: make_float, make_int and make_uint assigned to float vectors. *)
From Verif Require Import Model.MakeFloat Proof.MakeConstP Proof.FloatsP Proof.FConv64P Proof.FConv64P5 Proof.FArithP Proof.FConvP Proof.FloatRoundP Thm.T_FConv64 Thm.T_Const.
From Coq Require Import Lia.

Lemma as_elem_w (d : bool) : (if d then 64 else 32) = fw d. Proof. destruct d; reflexivity. Qed.
Lemma i_make_floats_ok c A d s l off : valid_arch A = true -> avail_flt A s = true -> (length l > 0)%nat ->
  i_make_floats c A d s l off = Ok (pack (fw d) (rbits s) (fun k => as_elem c d (cval_at l (off + k)))).
Proof.
  intros HV HA Hl. unfold i_make_floats. set (f := fun k => as_elem c d (cval_at l (off + k))).
  destruct s; cbn [avail_flt rbits] in *; [|rewrite HA, as_elem_w; reflexivity..].
  assert (HC : forall k, Z.of_nat (length l) = k -> 0 < k -> forall x y, x mod k = y mod k -> f x = f y).
  { intros k Ek Hk x y Exy. unfold f. f_equal. apply cval_mod. rewrite Ek, (Z.add_mod off x), (Z.add_mod off y), Exy by lia. reflexivity. }
  destruct d.
  - fam HV; unfold use_neon64; rw_flags; cbn [orb andb negb]; repeat split_if; reflexivity.
  - cbv zeta. match goal with |- context [if use_null A || use_neon_no_flt_sp A then _ else ?b] => set (g := if use_null A || use_neon_no_flt_sp A then Ok (null_make_vec 32 128 f) else b) end.
    assert (Hg : g = Ok (pack 32 128 f)).
    { unfold g, use_neon_no_flt_sp. clear g. fam HV; rw_flags; cbn [orb andb negb]; repeat split_if; reflexivity. }
    destruct (use_neon_flt_sp A); [|exact Hg]. rewrite Hg.
    destruct l as [|x0 [|x1 [|x2 l]]]; cbn [length] in *; try reflexivity; f_equal.
    + unfold vdupq, splat. apply pack_ext; [reflexivity|]. intros i Hi. f_equal. unfold f. f_equal. apply cval_mod. cbn [length Z.of_nat Pos.of_succ_nat]. rewrite !Z.mod_1_r. reflexivity.
    + apply pack_half; [reflexivity|reflexivity|]. intros i Hi. apply (HC 2); [reflexivity|lia|]. change (64 / fw false) with 2. replace (i + 2) with (i + 1 * 2) by ring. apply Z.mod_add. lia.
Qed.
Lemma make_floats_from_ok c A d s l : valid_arch A = true -> avail_flt A s = true -> (length l > 0)%nat ->
  forall n off, exists vr, make_floats_from c A d s l off n = Ok vr /\ wfv s vr /\ length vr = n /\
    lanes (fw d) s vr = map (fun k => wrap (fw d) (as_elem c d (cyclic l (off + k)))) (zrange (Z.of_nat n * (rbits s / fw d))).
Proof.
  intros HV HA Hl. assert (0 < rbits s / fw d) as HP by (destruct s, d; reflexivity).
  induction n as [|n IH]; intros off.
  - exists []. repeat split; constructor.
  - destruct (IH (off + rbits s / fw d)) as (vr & E & Wr & L & EL). cbn [make_floats_from].
    rewrite i_make_floats_ok by auto. cbn [bind]. rewrite E. cbn [bind]. eexists. split; [reflexivity|].
    split; [constructor; [apply pack_reg, fwok|exact Wr]|]. split; [cbn; lia|].
    rewrite lanes_pack by apply fwok. rewrite EL.
    replace (Z.of_nat (S n) * (rbits s / fw d)) with (rbits s / fw d + Z.of_nat n * (rbits s / fw d)) by lia.
    rewrite zrange_app, map_app, map_map by lia. f_equal. apply map_ext. intros. do 3 f_equal. lia.
Qed.

(** float64 vectors: element k is the k-th value, repeated cyclically *)
Theorem make_float64_spec : forall A s l n, valid_arch A = true -> avail_flt A s = true -> (length l > 0)%nat ->
  Forall (fun x => 0 <= x < 2 ^ 64) l ->
  exists vr, make_floats FromDouble A true s l n = Ok vr /\ wfv s vr /\ length vr = n /\
    lanes 64 s vr = map (cyclic l) (zrange (Z.of_nat n * (rbits s / 64))).
Proof.
  intros A s l n HV HA Hl HR. destruct (make_floats_from_ok FromDouble A true s l HV HA Hl n 0) as (vr & E & W & L & EL).
  exists vr. split; [exact E|]. split; auto. split; auto. change (fw true) with 64 in EL. rewrite EL. apply map_ext. intros k.
  rewrite Z.add_0_l. apply Z.mod_small. rewrite Forall_forall in HR. apply HR. unfold cyclic. apply nth_In.
  pose proof (Z.mod_pos_bound k (Z.of_nat (length l)) ltac:(lia)). lia.
Qed.
(** float32 vectors: element k is the k-th value rounded to the nearest float32 *)
Theorem make_float32_spec : forall A s l n, valid_arch A = true -> avail_flt A s = true -> (length l > 0)%nat ->
  exists vr, make_floats FromDouble A false s l n = Ok vr /\ wfv s vr /\ length vr = n /\
    Forall2 (fun k r => narrowed (cyclic l k) r) (zrange (Z.of_nat n * (rbits s / 32))) (lanes 32 s vr).
Proof.
  intros A s l n HV HA Hl. destruct (make_floats_from_ok FromDouble A false s l HV HA Hl n 0) as (vr & E & W & L & EL).
  exists vr. split; [exact E|]. split; auto. split; auto. change (fw false) with 32 in EL. rewrite EL. clear EL.
  induction (zrange _) as [|k ks IH]; [constructor|]. cbn [map]. constructor; [|exact IH].
  rewrite Z.add_0_l. unfold as_elem, wrap. rewrite Z.mod_small by apply f_narrow_ok. apply f_narrow_ok.
Qed.
(** make_int and make_uint: element k is the k-th integer, rounded to the nearest number of the
    vector's format (exact up to 24, 53 bits) *)
Definition int_arg (sg : bool) (x : Z) : Z := if sg then sgn 64 x else x.
Definition nearest_to (w n r : Z) : Prop := f_neg w r = (n <? 0) /\ nearest_mag w (Z.abs n * 2 ^ fulp w) 1 (f_mag w r).
Lemma nearest_ran d n : 0 <= f_of_int (fw d) n < 2 ^ fw d.
Proof.
  unfold f_of_int. destruct (n =? 0); [split; [lia|destruct d; reflexivity]|]. apply sg_ran.
  apply (f_round_nearest d (Z.abs n * 2 ^ fulp (fw d)) 0); [|lia]. apply Z.mul_nonneg_nonneg; [lia|]. apply Z.pow_nonneg; lia.
Qed.
Theorem make_int_float_spec : forall (sg : bool) A d s l n, valid_arch A = true -> avail_flt A s = true -> (length l > 0)%nat ->
  exists vr, make_floats (if sg then FromInt else FromUint) A d s l n = Ok vr /\ wfv s vr /\ length vr = n /\
    Forall2 (fun k r => nearest_to (fw d) (int_arg sg (cyclic l k)) r) (zrange (Z.of_nat n * (rbits s / fw d))) (lanes (fw d) s vr).
Proof.
  intros sg A d s l n HV HA Hl. destruct (make_floats_from_ok (if sg then FromInt else FromUint) A d s l HV HA Hl n 0) as (vr & E & W & L & EL).
  exists vr. split; [exact E|]. split; auto. split; auto. rewrite EL. clear EL.
  induction (zrange _) as [|k ks IH]; [constructor|]. cbn [map]. constructor; [|exact IH].
  assert (as_elem (if sg then FromInt else FromUint) d (cyclic l (0 + k)) = f_of_int (fw d) (int_arg sg (cyclic l k))) as -> by (rewrite Z.add_0_l; destruct sg; reflexivity).
  unfold wrap. rewrite Z.mod_small by apply nearest_ran. unfold nearest_to. destruct (of_int_nearest d (int_arg sg (cyclic l k))); auto.
Qed.
(** 1.5, 2^-150 (rounds to 0), -0.1 (rounds), infinity on 64-bit ARM and SSE2; two values on NEON *)
Example make_float_case :
  make_floats FromDouble arch_sse2 false R128 [0x3ff8000000000000; 0x3690000000000000; 0xbfb999999999999a; 0x7ff0000000000000] 2 =
    Ok [0x7f800000bdcccccd000000003fc00000; 0x7f800000bdcccccd000000003fc00000] /\
  make_floats FromDouble arch_neon64 false R128 [0x3ff8000000000000; 0xbfb999999999999a] 1 = Ok [0xbdcccccd3fc00000bdcccccd3fc00000] /\
  make_floats FromDouble arch_neon64 true R128 [0x3ff8000000000000] 1 = Ok [0x3ff80000000000003ff8000000000000] /\
  make_floats FromInt arch_neon32 false R128 [2 ^ 64 - 3; 16777217] 1 = Ok [0x4b800000c04000004b800000c0400000] /\
  make_floats FromUint arch_avx true R256 [2 ^ 64 - 1] 1 = Ok [splat 64 256 0x43f0000000000000].
Proof. repeat match goal with |- _ /\ _ => split end; vm_compute; reflexivity. Qed.
