(** zip, permute and splat select the lanes they should. *)
From Verif Require Export Proof.NeonShufP Model.Permute.

Definition p_zip (n : Z) (hi : bool) : Z -> src := if hi then p_zip_hi n else p_zip_lo n.
Lemma builtin_shuffle4_lsh s0 s1 s2 s3 a :
  builtin_shuffle4 s0 s1 s2 s3 a = lsh 32 128 4 (p_permute4 s0 s1 s2 s3) [a].
Proof.
  apply pack_lsh; [reflexivity|].
  intros i Hi. change (128 / 32) with 4 in Hi. rewrite wrap_lane. four i Hi; reflexivity.
Qed.
Lemma i_zip_ok A e s hi a b : valid_arch A = true -> avail_et A e s = true ->
  reg (rbits s) a -> reg (rbits s) b ->
  i_zip A e s hi a b = Ok (lsh (eb e) (rbits s) (en e) (p_zip (en e) hi) [a; b]).
Proof.
  intros HV HA Ha Hb. destruct hi, e; unfold i_zip, use_neon64, use_neon_no_flt_sp; cbn [eb avail_et] in *;
  destruct s; cbn [rbits] in *; lad HV HA ltac:(sh_leaf 16).
Qed.
Lemma has_pb_sse2 A : use_sse2 A = false -> has_permute_bytes A = true.
Proof. unfold has_permute_bytes. intros ->. reflexivity. Qed.
Lemma has_pb_ssse3 A : use_ssse3 A = true -> has_permute_bytes A = true.
Proof. unfold has_permute_bytes. intros ->. destruct (use_sse2 A); reflexivity. Qed.
#[global] Hint Resolve has_pb_sse2 has_pb_ssse3 : core.
Ltac sel_ext e ::= lazymatch e with
  | n32_bcast _ _ => rewrite n32_bcast_lsh by sdiv
  | n32_shf2x2 _ _ _ _ => rewrite n32_shf2x2_lsh by sdiv
  | n32_shf_1x2 _ _ _ _ => rewrite n32_shf_1x2_lsh by sdiv
  | n64_move_hi _ _ => rewrite n64_move_hi_lsh by sdiv
  | n64_permute2 _ _ _ _ => rewrite n64_permute2_lsh by sdiv
  | n32_permute4 _ _ _ _ _ => rewrite n32_permute4_lsh by sdiv
  | builtin_shuffle4 _ _ _ _ _ => rewrite builtin_shuffle4_lsh
  end.
Lemma permute_mask_ok A s k sels a : valid_arch A = true -> avail_int A 8 s = true -> has_permute_bytes A = true ->
  reg (rbits s) a -> mask_ok 16 (shuffle_mask_bytes k sels) = true ->
  permute_mask A s k sels a = Ok (lsh 8 (rbits s) 16 (mask_sel (shuffle_mask_bytes k sels)) [a; a]).
Proof. intros. apply perm_mask_ok; auto. Qed.
Ltac mask_leaf := idtac; rewrite permute_mask_ok by (auto; enum); cbn [rbits]; sh_leaf 16.
(** a rung: either a pure selection, or the NEON 16-bit table, or a constant byte mask *)
Ltac perm_leaf := idtac; first [ apply n16_permute4_lsh; auto; fail | mask_leaf | sh_leaf 16 ].
Lemma i_permute4_16_ok A s s0 s1 s2 s3 a : valid_arch A = true -> avail_int A 16 s = true ->
  0 <= s0 < 4 -> 0 <= s1 < 4 -> 0 <= s2 < 4 -> 0 <= s3 < 4 -> reg (rbits s) a ->
  i_permute4_16 A s s0 s1 s2 s3 a = Ok (lsh 16 (rbits s) 4 (p_permute4 s0 s1 s2 s3) [a]).
Proof.
  intros HV HA H0 H1 H2 H3 Ha. unfold i_permute4_16. destruct s; cbn [rbits] in *; lad HV HA ltac:(perm_leaf).
Qed.
Lemma i_permute4_32_ok A s s0 s1 s2 s3 a : valid_arch A = true -> avail_int A 32 s = true ->
  0 <= s0 < 4 -> 0 <= s1 < 4 -> 0 <= s2 < 4 -> 0 <= s3 < 4 -> reg (rbits s) a ->
  i_permute4_32 A s s0 s1 s2 s3 a = Ok (lsh 32 (rbits s) 4 (p_permute4 s0 s1 s2 s3) [a]).
Proof.
  intros HV HA H0 H1 H2 H3 Ha. unfold i_permute4_32. destruct s; cbn [rbits] in *; lad HV HA ltac:(perm_leaf).
Qed.
Lemma i_permute4_f32_ok A s s0 s1 s2 s3 a : valid_arch A = true -> avail_flt A s = true ->
  0 <= s0 < 4 -> 0 <= s1 < 4 -> 0 <= s2 < 4 -> 0 <= s3 < 4 -> reg (rbits s) a ->
  i_permute4_f32 A s s0 s1 s2 s3 a = Ok (lsh 32 (rbits s) 4 (p_permute4 s0 s1 s2 s3) [a]).
Proof.
  intros HV HA H0 H1 H2 H3 Ha. unfold i_permute4_f32. destruct s; cbn [rbits] in *; lad HV HA ltac:(perm_leaf).
Qed.
Lemma i_permute4_64_ok A s s0 s1 s2 s3 a : valid_arch A = true -> avail_int A 64 s = true -> s <> R128 ->
  0 <= s0 < 4 -> 0 <= s1 < 4 -> 0 <= s2 < 4 -> 0 <= s3 < 4 -> reg (rbits s) a ->
  i_permute4_64 A s s0 s1 s2 s3 a = Ok (lsh 64 (rbits s) 4 (p_permute4 s0 s1 s2 s3) [a]).
Proof.
  intros HV HA Hs H0 H1 H2 H3 Ha. unfold i_permute4_64.
  destruct s; [congruence| |]; cbn [rbits] in *; lad HV HA ltac:(sh_leaf 32).
Qed.
Lemma i_permute2_64_ok A s s0 s1 a : valid_arch A = true -> avail_int A 64 s = true ->
  0 <= s0 < 2 -> 0 <= s1 < 2 -> reg (rbits s) a ->
  i_permute2_64 A s s0 s1 a = Ok (lsh 64 (rbits s) 2 (p_permute2 s0 s1) [a]).
Proof.
  intros HV HA H0 H1 Ha. unfold i_permute2_64. destruct s; cbn [rbits] in *;
  lad HV HA ltac:(idtac; first [ rewrite (i_permute4_32_ok A R128) by (auto; lia); cbn [rbits]; sh_leaf 16
    | rewrite i_permute4_64_ok by (auto; first [discriminate|lia]); cbn [rbits]; sh_leaf 32 | sh_leaf 16]).
Qed.
Lemma i_permute2_f64_ok A s s0 s1 a : valid_arch A = true -> avail_flt A s = true ->
  0 <= s0 < 2 -> 0 <= s1 < 2 -> reg (rbits s) a ->
  i_permute2_f64 A s s0 s1 a = Ok (lsh 64 (rbits s) 2 (p_permute2 s0 s1) [a]).
Proof.
  intros HV HA H0 H1 Ha. unfold i_permute2_f64, use_neon64. destruct s; cbn [rbits] in *;
  lad HV HA ltac:(idtac; first [ rewrite (i_permute2_64_ok A R128) by (auto; lia); cbn [rbits]; sh_leaf 16
    | sh_leaf 16 | sh_leaf 32 | sh_leaf 64]).
Qed.
(** a register size available for narrow elements is available for wide ones and for floats *)
Lemma avail_wide A w w' s : valid_arch A = true -> avail_int A w s = true -> (w' = 32 \/ w' = 64 \/ w' = w) -> avail_int A w' s = true.
Proof.
  intros HV HA Hw. destruct s; cbn in *; auto.
  destruct (use_avx512bw A) eqn:E.
  - destruct (use_avx512f A) eqn:F; [repeat match goal with |- context [if ?b then _ else _] => destruct b end; auto|vimp HV].
  - destruct Hw as [-> | [-> | ->]]; cbn in *; try assumption;
    repeat match type of HA with context [if ?b then _ else _] => destruct b end; auto; discriminate.
Qed.
Lemma avail_flt_int A w s : valid_arch A = true -> avail_int A w s = true -> avail_flt A s = true.
Proof.
  intros HV HA. destruct s; cbn in *; auto.
  - destruct (use_avx A) eqn:E; auto. vimp HV.
  - destruct (use_avx512f A) eqn:E; auto. exfalso.
    repeat match type of HA with context [if ?b then _ else _] => destruct b end; try discriminate; vimp HV.
Qed.
(** register shape of an expression built from instructions *)
Ltac regt := lazymatch goal with |- reg _ _ => idtac end; cbn [rbits]; repeat first
  [ assumption | apply lsh_reg; reflexivity | apply pack_reg; reflexivity | apply splat_reg; reflexivity
  | apply v1_reg; reflexivity | apply v2_reg; reflexivity
  | apply lor_reg'; [| |lia] | apply land_reg'; [| |lia] | apply ldiff_reg'; [|lia] | apply lxor_reg'; [| |lia]
  | match goal with |- reg _ (if ?c then _ else _) => destruct c end
  | match goal with |- reg _ ?e => let f := sel_head e in unfold f; cbv beta zeta end ].
Lemma vdupq_half_lsh w n a : (w = 8 \/ w = 16 \/ w = 32) -> 0 <= n < 128 / w -> reg 128 a ->
  vdupq_half w n a = lsh w 128 (128 / w) (p_splat n) [a].
Proof.
  intros Hw Hn Ha. assert (vdupq_half w n a = splat w 128 (lane w n a)) as ->.
  { unfold vdupq_half. destruct (n <? 64 / w) eqn:E.
    - destruct Hw as [-> | [-> | ->]]; apply vdup_half_lo; cbn in *; lia.
    - destruct Hw as [-> | [-> | ->]]; rewrite vdup_half_hi by (cbn in *; lia); f_equal; f_equal; lia. }
  destruct Hw as [-> | [-> | ->]]; change (128/8) with 16 in *; change (128/16) with 8 in *; change (128/32) with 4 in *; selg 16.
Qed.
Lemma i_splat8_ok A s n a : valid_arch A = true -> avail_int A 16 s = true -> 0 <= n < 8 -> reg (rbits s) a ->
  i_splat8 A s n a = Ok (lsh 16 (rbits s) 8 (p_splat n) [a]).
Proof.
  intros HV HA Hn Ha. unfold i_splat8, use_neon64. destruct s; cbn [rbits] in *; cbn [i_permute2];
  lad HV HA ltac:(idtac; first [
     rewrite (i_move_l_wrapper_ok A I16 R128) by (auto; cbn; lia); cbn [rbits eb bind]; sh_leaf 16
   | rewrite i_permute2_64_ok by first [ assumption | lia | regt | solve [eapply avail_wide; [exact HV|exact HA|auto]] ]; cbn [rbits]; sh_leaf 16
   | rewrite vdupq_half_lsh by (auto; cbn; lia); reflexivity
   | mask_leaf | sh_leaf 16]).
Qed.
Lemma i_splat16_ok A s n a : valid_arch A = true -> avail_int A 8 s = true -> 0 <= n < 16 -> reg (rbits s) a ->
  i_splat16 A s n a = Ok (lsh 8 (rbits s) 16 (p_splat n) [a]).
Proof.
  intros HV HA Hn Ha. assert (HA16 : avail_int A 16 s = true) by (destruct s; exact HA).
  assert (HA8 : avail_et A I8 s = true) by (destruct s; exact HA).
  assert (HA1 : avail_et A I8 R128 = true) by reflexivity.
  unfold i_splat16, use_neon64. destruct s; cbn [rbits] in *;
  lad HV HA ltac:(idtac; first [
     rewrite (i_move_l_wrapper_ok A I8 R128) by (auto; cbn; lia); cbn [rbits eb bind]; sh_leaf 16
   | rewrite i_zip_ok by auto; cbn [rbits eb en bind]; rewrite i_splat8_ok by first [assumption|apply Z.mod_pos_bound; lia|regt];
     cbn [rbits]; destruct (n <? 8) eqn:E8; cbn [negb p_zip]; sh_leaf 16
   | rewrite vdupq_half_lsh by (auto; cbn; lia); reflexivity
   | cbv zeta; rewrite i_splat8_ok by first [assumption|split; [apply Z.div_pos; lia|apply Z.div_lt_upper_bound; lia]|regt]; cbn [rbits]; sh_leaf 16
   | mask_leaf | sh_leaf 16]).
Qed.
Lemma i_splat_n_ok A e s n a : valid_arch A = true -> avail_et A e s = true -> 0 <= n < en e -> reg (rbits s) a ->
  i_splat_n A e s n a = Ok (lsh (eb e) (rbits s) (en e) (p_splat n) [a]).
Proof.
  intros HV HA Hn Ha. destruct e; cbn [i_splat_n eb avail_et] in *.
  - apply i_splat16_ok; auto.
  - apply i_splat8_ok; auto.
  - unfold i_splat4, use_neon64. change (en I32) with 4 in *. destruct s; cbn [rbits i_permute4] in *.
    1: lad HV HA ltac:(idtac; first [rewrite i_permute4_32_ok by first [assumption|lia]; reflexivity
         | rewrite vdupq_half_lsh by (auto; cbn; lia); reflexivity | sh_leaf 16]).
    all: rewrite i_permute4_32_ok by first [assumption|lia]; sh_leaf 16.
  - unfold i_splat2, use_neon64. change (en I64) with 2 in *. destruct s; cbn [rbits i_permute2] in *.
    1: lad HV HA ltac:(idtac; first [rewrite (i_permute2_64_ok A R128) by first [assumption|lia]; cbn [rbits]; sh_leaf 16
         | rewrite ?vdup_half_lo, ?vdup_half_hi by (cbn; lia); sh_leaf 16 | sh_leaf 16]).
    all: rewrite i_permute2_64_ok by first [assumption|lia]; cbn [rbits]; sh_leaf 16.
  - unfold i_splat4, use_neon64, use_neon_no_flt_sp. change (en F32) with 4 in *. destruct s; cbn [rbits i_permute4] in *.
    1: lad HV HA ltac:(idtac; first [rewrite i_permute4_f32_ok by first [assumption|lia]; reflexivity
         | rewrite vdupq_half_lsh by (auto; cbn; lia); reflexivity | sh_leaf 16]).
    all: rewrite i_permute4_f32_ok by first [assumption|lia]; sh_leaf 16.
  - unfold i_splat2f, use_neon64. change (en F64) with 2 in *. destruct s; cbn [rbits i_permute2] in *.
    1: lad HV HA ltac:(idtac; first [rewrite (i_permute2_f64_ok A R128) by first [assumption|lia]; cbn [rbits]; sh_leaf 16
         | sh_leaf 16]).
    all: rewrite i_permute2_f64_ok by first [assumption|lia]; cbn [rbits]; sh_leaf 16.
Qed.
(** the permutes of narrower element types, through 4-lane groups *)
Lemma i_permute2_ok A e s s0 s1 a : valid_arch A = true -> avail_et A e s = true -> e <> I8 ->
  0 <= s0 < 2 -> 0 <= s1 < 2 -> reg (rbits s) a ->
  i_permute2 A e s s0 s1 a = Ok (lsh (eb e) (rbits s) 2 (p_permute2 s0 s1) [a]).
Proof.
  intros HV HA He H0 H1 Ha. destruct e; [congruence|..]; cbn [i_permute2 avail_et eb] in *.
  - rewrite i_permute4_16_ok by first [assumption|lia]. destruct s; cbn [rbits] in *; sh_leaf 16.
  - rewrite i_permute4_32_ok by first [assumption|lia]. destruct s; cbn [rbits] in *; sh_leaf 16.
  - apply i_permute2_64_ok; auto.
  - rewrite i_permute4_f32_ok by first [assumption|lia]. destruct s; cbn [rbits] in *; sh_leaf 16.
  - apply i_permute2_f64_ok; auto.
Qed.
Lemma i_permute4_ok A e s s0 s1 s2 s3 a : valid_arch A = true -> avail_et A e s = true -> e = I16 \/ e = I32 \/ e = F32 ->
  0 <= s0 < 4 -> 0 <= s1 < 4 -> 0 <= s2 < 4 -> 0 <= s3 < 4 -> reg (rbits s) a ->
  i_permute4 A e s s0 s1 s2 s3 a = Ok (lsh (eb e) (rbits s) 4 (p_permute4 s0 s1 s2 s3) [a]).
Proof.
  intros HV HA [-> | [-> | ->]] **; cbn [i_permute4 avail_et eb] in *;
    [apply i_permute4_16_ok|apply i_permute4_32_ok|apply i_permute4_f32_ok]; auto.
Qed.
