(** C53: div_p, unsigned division of the P least significant bits. *)
From Verif Require Import Proof.CppLemmas Proof.DivPP Model.DivP Spec.DivP.
From Coq Require Import Lia.

Section S.
  Variables (A : arch) (w : ew) (P : nat) (num den : Z).
  Hypotheses (HV : valid_arch A = true) (Hw : w = W8 \/ w = W16) (HP : 1 <= Z.of_nat P <= wb w)
             (Hn : 0 <= num < 2 ^ 128) (Hd : 0 <= den < 2 ^ 128).
  Local Notation W := (wb w).
  Local Notation p := (Z.of_nat P).

  (** The quotient, when every divisor is positive and has at most P bits. *)
  Theorem div_p_partial : (forall i, 0 <= i < 128 / W -> 0 < lane W i den < 2 ^ p) ->
    exists r, div_p A w P num den = Ok r /\ lanes2 W 128 (s_div_p p) num den r.
  Proof.
    intros HD. destruct (use_null A) eqn:E0.
    - assert (EN : div_p A w P num den = null_div_p (ut w) p 128 num den).
      { unfold div_p. rewrite E0. destruct (Z.ltb_spec p 1); [lia|]. destruct (Z.ltb_spec (wb w) p); [lia|]. destruct Hw as [-> | ->]; reflexivity. }
      rewrite EN, null_div_p_ok by (auto; intros i Hi; rewrite Z.mod_small by (specialize (HD i Hi); lia); specialize (HD i Hi); lia).
      eexists. split; [reflexivity|]. assert (HK := wokW w Hw). split; [apply v2_reg; auto|]. intros i Hi. rewrite lane_v2 by auto. apply wrap_small.
      assert (HPW : 2 ^ p <= 2 ^ W) by (apply Z.pow_le_mono_r; lia). assert (0 < 2 ^ p) by (apply Z.pow_pos_nonneg; lia). specialize (HD i Hi). unfold s_div_p. rewrite (Z.mod_small (lane W i den)) by lia.
      pose proof (Z.mod_pos_bound (lane W i num) (2 ^ p) ltac:(lia)) as RX. split; [apply Z.div_pos; lia|]. apply Z.div_lt_upper_bound; [lia|nia].
    - destruct (div_p_simd_ok A w num den P HV Hw Hn Hd ltac:(lia) E0 ltac:(lia)) as (r & E & Hr & HL). exists r. split; auto. split; [exact Hr|]. intros i Hi.
      rewrite HL by auto. specialize (HD i Hi). destruct (Z.eqb_spec (lane W i den) 0); [lia|]. unfold s_div_p. rewrite (Z.mod_small (lane W i den)) by lia. reflexivity.
  Qed.
  (** Without SIMD: for every divisor whose P low bits are not all zero. *)
  Theorem div_p_null_spec : use_null A = true -> (forall i, 0 <= i < 128 / W -> lane W i den mod 2 ^ p <> 0) ->
    exists r, div_p A w P num den = Ok r /\ lanes2 W 128 (s_div_p p) num den r.
  Proof.
    intros E0 HD. assert (EN : div_p A w P num den = null_div_p (ut w) p 128 num den).
    { unfold div_p. rewrite E0. destruct (Z.ltb_spec p 1); [lia|]. destruct (Z.ltb_spec (wb w) p); [lia|]. destruct Hw as [-> | ->]; reflexivity. }
    rewrite EN, null_div_p_ok by auto. eexists. split; [reflexivity|]. assert (HK := wokW w Hw). split; [apply v2_reg; auto|]. intros i Hi. rewrite lane_v2 by auto. apply wrap_small.
    assert (HPW : 2 ^ p <= 2 ^ W) by (apply Z.pow_le_mono_r; lia). assert (0 < 2 ^ p) by (apply Z.pow_pos_nonneg; lia). specialize (HD i Hi). unfold s_div_p.
    pose proof (Z.mod_pos_bound (lane W i num) (2 ^ p) ltac:(lia)) as RX. pose proof (Z.mod_pos_bound (lane W i den) (2 ^ p) ltac:(lia)) as RY. split; [apply Z.div_pos; lia|]. apply Z.div_lt_upper_bound; [lia|nia].
  Qed.
  (** With SIMD: the whole divisor counts, and a zero divisor gives all ones. *)
  Theorem div_p_simd_spec : use_null A = false ->
    exists r, div_p A w P num den = Ok r /\
      lanes2 W 128 (fun x y => if y =? 0 then 2 ^ p - 1 else (x mod 2 ^ p) / y) num den r.
  Proof. intros E0. destruct (div_p_simd_ok A w num den P HV Hw Hn Hd ltac:(lia) E0 ltac:(lia)) as (r & E & Hr & HL). exists r. split; auto. split; [exact Hr|exact HL]. Qed.
End S.
(** "only P least significant bits of both numerator and denumerator are considered": 8 / 0x12 with
    P = 4 should be 8 / 2 = 4 and is 0 with SIMD *)
Theorem div_p_wide_divisor_refuted :
  div_p arch_null W8 4 (splat 8 128 8) (splat 8 128 0x12) = Ok (splat 8 128 4) /\
  div_p arch_sse2 W8 4 (splat 8 128 8) (splat 8 128 0x12) = Ok 0 /\ s_div_p 4 8 0x12 = 4.
Proof. split; [|split]; vm_compute; reflexivity. Qed.
(** division by zero: undefined behaviour without SIMD, 2^P - 1 with it *)
Theorem div_p_zero_refuted :
  div_p arch_null W16 9 7 0 = UB /\ div_p arch_neon32 W16 9 7 0 = Ok (splat 16 128 511).
Proof. split; vm_compute; reflexivity. Qed.
Example div_p_case :
  div_p arch_avx W8 8 (splat 8 128 250) (splat 8 128 255) = Ok 0 /\ div_p arch_altivec W8 8 (splat 8 128 255) (splat 8 128 7) = Ok (splat 8 128 36) /\
  div_p arch_null W16 16 (splat 16 128 65535) (splat 16 128 10) = Ok (splat 16 128 6553) /\ div_p arch_avx512all W16 12 (splat 16 128 0xfff0) (splat 16 128 16) = Ok (splat 16 128 255).
Proof. split; [|split; [|split]]; vm_compute; reflexivity. Qed.
