(** extract_bits: two registers, and the chosen bit *)
From Verif Require Import Spec.BitTest Model.BitTest Proof.CppLemmas Proof.BitwiseP Proof.MakeConstP Proof.MoveP Proof.UnzipP Proof.ExtractP Proof.ExtractP2 Proof.ShiftP Proof.ArithP
  Proof.PopcntP Proof.ReduceP Proof.ReduceP6 Proof.ReduceMulP Proof.BitTestP Proof.BitTestP2 Proof.BitTestP3 Proof.BitTestP4 Proof.BitTestP5.

Lemma sgn_case w y : 0 < w -> 0 <= y < 2 ^ w -> sgn w y = if y <? 2 ^ (w - 1) then y else y - 2 ^ w.
Proof.
  intros Hw Hy. assert (E : 2 ^ w = 2 * 2 ^ (w - 1)) by (rewrite <- Z.pow_succ_r by lia; f_equal; lia). destruct (Z.ltb_spec y (2 ^ (w - 1))).
  - apply sgn_id; lia.
  - assert (W : wrap w y = wrap w (y - 2 ^ w)) by (unfold wrap; rewrite <- (Z.mod_add (y - 2 ^ w) 1) by lia; f_equal; lia).
    rewrite <- (sgn_wrap w y), W, sgn_wrap by lia. apply sgn_id; lia.
Qed.
Lemma two_parts_ok t k n x y : (t = c_u16 /\ k = 16 /\ n = 32) \/ (t = c_u8 /\ (k = 8 \/ k = 4 \/ k = 2) /\ 2 * k <= n <= 16 /\ 8 <= n) ->
  0 <= x < 2 ^ k -> 0 <= y < 2 ^ k -> two_parts t k n (Ok x) (Ok y) = Ok (x + y * 2 ^ k).
Proof.
  intros H Hx Hy. unfold two_parts. cbn [bind].
  assert (K : 0 < k <= 16 /\ 2 * k <= n <= 32) by (destruct H as [(_ & -> & ->)|(_ & [-> |[-> | ->]] & ?)]; lia).
  set (y' := if k =? 16 then sgn 16 y else y).
  assert (HS : c_shl (t, y) (c_lit k) = Ok (c_i32, y' * 2 ^ k)).
  { unfold c_shl. assert (P : promote (t, y) = (c_i32, y)) by (destruct H as [(-> & _)|(-> & _)]; reflexivity). rewrite P. change (promote (c_lit k)) with (c_int, k). cbn [snd]. unfold c_i32. destruct (Z.ltb_spec k 0); [lia|]. destruct (Z.leb_spec 32 k); [lia|]. cbn [orb].
    destruct (Z.ltb_spec y 0); [lia|]. assert (B : y * 2 ^ k < 2 ^ 32).
    { assert (2 ^ k <= 2 ^ 16) by (apply Z.pow_le_mono_r; lia). change (2 ^ 16) with 65536 in *. change (2 ^ 32) with 4294967296. nia. }
    destruct (Z.ltb_spec (y * 2 ^ k) (2 ^ 32)); [|lia]. f_equal. f_equal. unfold y'. destruct (Z.eqb_spec k 16) as [->|N].
    - assert (B0 : 0 <= y * 2 ^ 16) by (apply Z.mul_nonneg_nonneg; [apply Hy|discriminate]). rewrite (sgn_case 32) by (split; [exact B0|exact B] || lia). rewrite (sgn_case 16) by (exact Hy || lia). change (2 ^ (32 - 1)) with 2147483648. change (2 ^ (16 - 1)) with 32768. change (2 ^ 16) with 65536 in *. change (2 ^ 32) with 4294967296 in *.
      destruct (Z.ltb_spec (y * 65536) 2147483648), (Z.ltb_spec y 32768); (match goal with |- Ok (?c, ?u) = Ok (?c, ?v) => replace u with v by lia; reflexivity end).
    - rewrite sgn_id; [reflexivity|lia|]. change (2 ^ (32 - 1)) with 2147483648. assert (k <= 8) by (destruct H as [(_ & -> & _)|(_ & [-> |[-> | ->]] & _)]; lia).
      assert (2 ^ k <= 2 ^ 8) by (apply Z.pow_le_mono_r; lia). change (2 ^ 8) with 256 in *. nia. }
  rewrite HS. cbn [bind].
  assert (YR : - 2 ^ 31 <= x + y' * 2 ^ k < 2 ^ 31 /\ (y' = y \/ (k = 16 /\ y' = y - 2 ^ 16))).
  { unfold y'. change (2 ^ 31) with 2147483648. destruct (Z.eqb_spec k 16) as [->|N].
    - pose proof (sgn_range 16 y ltac:(lia)) as SR. change (2 ^ (16 - 1)) with 32768 in *. change (2 ^ 16) with 65536 in *. split; [lia|].
      rewrite sgn_case by (try lia; exact Hy). change (2 ^ 16) with 65536. destruct (y <? 2 ^ (16 - 1)); auto.
    - assert (k <= 8) by (destruct H as [(_ & -> & _)|(_ & [-> |[-> | ->]] & _)]; lia). assert (2 ^ k <= 2 ^ 8) by (apply Z.pow_le_mono_r; lia). change (2 ^ 8) with 256 in *. split; [nia|auto]. }
  destruct YR as [YR YY].
  assert (HO : c_or (t, x) (c_i32, y' * 2 ^ k) = Ok (c_i32, x + y' * 2 ^ k)).
  { unfold c_or, carith. assert (P : promote (t, x) = (c_i32, x)) by (destruct H as [(-> & _)|(-> & _)]; reflexivity). rewrite P.
    change (promote (c_i32, y' * 2 ^ k)) with (c_i32, y' * 2 ^ k). cbn [fst snd]. change (usual c_i32 c_i32) with c_i32. change (2 ^ 31) with 2147483648 in *.
    assert (XR : x < 65536) by (assert (2 ^ k <= 2 ^ 16) by (apply Z.pow_le_mono_r; lia); change (2 ^ 16) with 65536 in *; lia).
    assert (YB : -2147483648 <= y' * 2 ^ k < 2147483648).
    { unfold y'. destruct (Z.eqb_spec k 16) as [->|N]; [pose proof (sgn_range 16 y ltac:(lia)) as SR; change (2 ^ (16 - 1)) with 32768 in *; change (2 ^ 16) with 65536 in *; lia|].
      assert (k <= 8) by (destruct H as [(_ & -> & _)|(_ & [-> |[-> | ->]] & _)]; lia). assert (2 ^ k <= 2 ^ 8) by (apply Z.pow_le_mono_r; lia). change (2 ^ 8) with 256 in *. nia. }
    unfold cconv. cbn [fst snd c_i32]. rewrite !sgn_id by (try lia; change (2 ^ (32 - 1)) with 2147483648; lia).
    rewrite lor_parts by lia. apply cres_ok. apply fits_spec. cbn [fst snd c_i32]. change (2 ^ (32 - 1)) with 2147483648. lia. }
  rewrite HO. cbn [bind]. unfold ccast, cconv. cbn [fst snd]. f_equal.
  assert (R2 : 0 <= x + y * 2 ^ k < 2 ^ n).
  { assert (2 ^ k * 2 ^ k <= 2 ^ n) by (rewrite <- Z.pow_add_r by lia; apply Z.pow_le_mono_r; lia). nia. }
  destruct YY as [-> |[-> ->]]; [apply wrap_small; auto|]. assert (n = 32) as -> by lia. change (2 ^ 16) with 65536 in *. change (2 ^ 32) with 4294967296 in *. unfold wrap. change (2 ^ 32) with 4294967296. zl.
Qed.
Section L.
  Variables (A : arch) (fp : Z).
  Hypotheses (HV : valid_arch A = true) (Hfp : fp mod 64 = 0).
  Lemma reg128_one w : vreg A (wb w) 128 = R128. Proof. unfold vreg. destruct w; reflexivity. Qed.
  Lemma reg256 w : vreg A (wb w) 256 = if use_avx2 A then R256 else R128.
  Proof.
    unfold vreg, fast_int. destruct (use_avx512bw A) eqn:E1; [assert (use_avx2 A = true) as -> by (destruct (use_avx2 A) eqn:?; auto; exfalso; vimp HV); reflexivity|].
    destruct (use_avx512f A) eqn:E2; [assert (use_avx2 A = true) as -> by (destruct (use_avx2 A) eqn:?; auto; exfalso; vimp HV); destruct w; reflexivity|].
    destruct (use_avx2 A); reflexivity.
  Qed.
End L.
