(** mem_pack: the inverse of mem_unpack. *)
From Verif Require Export Proof.PackedP.

Definition pk3 (w R n a b c : Z) : list Z :=
  [lsh w R n (p_packed n 3 0) [a; b; c]; lsh w R n (p_packed n 3 1) [a; b; c]; lsh w R n (p_packed n 3 2) [a; b; c]].
Definition pk4 (w R n a b c d : Z) : list Z :=
  [lsh w R n (p_packed n 4 0) [a; b; c; d]; lsh w R n (p_packed n 4 1) [a; b; c; d];
   lsh w R n (p_packed n 4 2) [a; b; c; d]; lsh w R n (p_packed n 4 3) [a; b; c; d]].
(** register j of the zipped ones: group i of it is element (n/4)*j+i of a, b, c and a zero;
    squeezed: these groups without the zeros at the front of the register *)
Definition p_z (n j k : Z) : src := if k mod 4 =? 3 then zlane else Some (Z.to_nat (k mod 4), n / 4 * j + k / 4).
Definition p_sq (n j k : Z) : src := if k <? n / 4 * 3 then Some (Z.to_nat (k mod 3), n / 4 * j + k / 3) else zlane.
Section P3.
  Variables (A : arch) (s : rsz) (a b c : Z).
  Hypothesis HV : valid_arch A = true.
  Notation R := (rbits s).
  Hypotheses (Ha : reg R a) (Hb : reg R b) (Hc : reg R c).
  Lemma pack3_64_ok e : avail_et A e s = true -> e = I64 \/ e = F64 -> pack3_64 A s e a b c = Ok (pk3 (eb e) R 2 a b c).
  Proof.
    intros HA HE. unfold pack3_64. repeat pstep. unfold pk3. leq; destruct HE as [-> | ->]; cbn [eb]; destruct s; cbn [rbits] in *; selg 16.
  Qed.
  Lemma pack3_32_shuf_ok e : avail_et A e s = true -> e = I32 \/ e = F32 -> pack3_32_shuf A s e a b c = Ok (pk3 (eb e) R 4 a b c).
  Proof.
    intros HA HE. unfold pack3_32_shuf.
    repeat (first [rewrite i_shuffle2_ok by ps | rewrite i_permute4_ok by (first [ps | destruct HE as [-> | ->]; auto])]; cbn [bind]).
    unfold pk3. leq; destruct HE as [-> | ->]; cbn [eb]; destruct s; cbn [rbits] in *; selg 16.
  Qed.
  (** what squeeze does when every fourth element is zero *)
  Lemma squeeze8_ok j x y z : avail_et A I8 s = true -> 0 <= j < 4 -> reg R x -> reg R y -> reg R z ->
    squeeze8 A s (lsh 8 R 16 (p_z 16 j) [x; y; z]) =
    Ok (lsh 8 R 16 (p_sq 16 j) [x; y; z]).
  Proof.
    intros HA Hj Hx Hy Hz. unfold squeeze8. destruct (use_ssse3 A) eqn:E3.
    - rewrite i_make_const_ok by (first [exact HA | exact HV | cbn; lia]). cbn [bind wb].
      assert (forall u m, i_permute_bytes16 A s u m = Ok (mm_shuffle_epi8 R u m)) as EP.
      { intros. unfold i_permute_bytes16. rewrite E3. destruct s; cbn [avail_et eb] in HA; lad HV HA ltac:(reflexivity). }
      rewrite EP, pshufb_const by (first [apply gok16 | ps]). apply f_equal. destruct s; cbn [rbits] in *; selg 16.
    - assert (s = R128) by (destruct s; auto; exfalso; cbn in HA; vimp HV). subst s.
      assert (forall l, forallb (fun c => (c =? 0) || (c =? ones 8)) l = true -> Z.of_nat (length l) = 16 ->
                i_make_const A W8 R128 l 0 = Ok (tfv (eb I8) 128 (fun i => q_of 8 l (i mod en I8)))) as EM.
      { intros l H1 H2. rewrite (const_tfv A W8 R128 l 16); auto; lia. }
      rewrite !EM by reflexivity. cbn [bind].
      rewrite i_shift_r_ok by (first [ps | cbn; lia]). cbn [bind wb].
      match goal with |- context [shr_v false 64 (rbits R128) 8 ?u] => change (shr_v false 64 (rbits R128) 8 u) with (vshrq_n_u 64 8 u) end.
      rewrite bl_ok by (first [ps | apply v1_reg; reflexivity]). cbn [bind].
      repeat pstep. rewrite bl_ok by (first [ps | apply lsh_reg; reflexivity]). apply f_equal. cbn [rbits eb] in *. fix_n. selg 16.
  Qed.
  Lemma squeeze16_ok j x y z : avail_et A I16 s = true -> 0 <= j < 4 -> reg R x -> reg R y -> reg R z ->
    squeeze16 A s (lsh 16 R 8 (p_z 8 j) [x; y; z]) =
    Ok (lsh 16 R 8 (p_sq 8 j) [x; y; z]).
  Proof.
    intros HA Hj Hx Hy Hz. pose proof (rsel s I16 8 (p_z 8 j) [x; y; z]) as HR. cbn [eb] in HR.
    unfold squeeze16. destruct (use_ssse3 A) eqn:E3.
    - unfold make_shuffle_bytes16_mask. rewrite i_make_const_ok by (first [exact HV | clear - HA; destruct s; exact HA | vm_compute; lia]). cbn [bind wb].
      assert (forall u m, i_permute_bytes16 A s u m = Ok (mm_shuffle_epi8 R u m)) as EP.
      { intros. unfold i_permute_bytes16. rewrite E3. destruct s; cbn [avail_et eb] in HA; lad HV HA ltac:(reflexivity). }
      rewrite EP, pshufb_const by (first [apply gok16 | exact HR | vm_compute; reflexivity]). apply f_equal. clear HR EP. destruct s; cbn [rbits] in *; selg 16.
    - assert (s = R128) by (destruct s; auto; exfalso; cbn in HA; vimp HV). subst s.
      assert (forall l, forallb (fun c => (c =? 0) || (c =? ones 16)) l = true -> Z.of_nat (length l) = 8 ->
                i_make_const A W16 R128 l 0 = Ok (tfv (eb I16) 128 (fun i => q_of 16 l (i mod en I16)))) as EM.
      { intros l H1 H2. rewrite (const_tfv A W16 R128 l 8); auto; lia. }
      rewrite !EM by reflexivity. cbn [bind].
      rewrite i_move_l_ok by (first [exact HR | ps]). cbn [bind]. rewrite bl_ok by (first [exact HR | ps | apply lsh_reg; reflexivity]).
      apply f_equal. clear HR EM. cbn [rbits eb] in *. fix_n. selg 16.
  Qed.
  Lemma pack3_zip_8_ok : avail_et A I8 s = true -> pack3_zip A s I8 I16 (squeeze8 A s) a b c = Ok (pk3 8 R 16 a b c).
  Proof.
    intros HA. unfold pack3_zip.
    assert (reg R 0) as H0 by (unfold reg; pose proof (pow2_pos R); destruct s; cbn [rbits] in *; lia).
    assert (forall L env, reg R (lsh 8 R 16 L env)) as HR by (intros; apply (rsel s I8)).
    repeat pstep. cbn [eb]. fix_n.
    match goal with |- bind (squeeze8 A s ?u) _ = _ => assert (u = lsh 8 R 16 (p_z 16 0) [a; b; c]) as E0 by (clear HR; destruct s; cbn [rbits] in *; selg 16); rewrite E0; clear E0 end.
    rewrite squeeze8_ok by (first [assumption | lia]). cbn [bind].
    match goal with |- bind (squeeze8 A s ?u) _ = _ => assert (u = lsh 8 R 16 (p_z 16 1) [a; b; c]) as E1 by (clear HR; destruct s; cbn [rbits] in *; selg 16); rewrite E1; clear E1 end.
    rewrite squeeze8_ok by (first [assumption | lia]). cbn [bind].
    match goal with |- bind (squeeze8 A s ?u) _ = _ => assert (u = lsh 8 R 16 (p_z 16 2) [a; b; c]) as E2 by (clear HR; destruct s; cbn [rbits] in *; selg 16); rewrite E2; clear E2 end.
    rewrite squeeze8_ok by (first [assumption | lia]). cbn [bind].
    match goal with |- bind (squeeze8 A s ?u) _ = _ => assert (u = lsh 8 R 16 (p_z 16 3) [a; b; c]) as E3 by (clear HR; destruct s; cbn [rbits] in *; selg 16); rewrite E3; clear E3 end.
    rewrite squeeze8_ok by (first [assumption | lia]). cbn [bind].
    unfold pack3_tail. rewrite !i_move_r_ok, !i_move_l_ok, i_shuffle2_ok by (first [apply HR | ps]). cbn [bind].
    assert (avail_int A (wb W32) s = true) as H32 by (change (avail_et A I32 s = true); ps).
    rewrite !i_bit_or_ok by (first [apply HR | exact H32 | ps]). cbn [bind].
    unfold pk3. clear HR. cbn [eb]. fix_n. leq; destruct s; cbn [rbits] in *; selg 16.
  Qed.
  Lemma pack3_zip_16_ok : avail_et A I16 s = true -> pack3_zip A s I16 I32 (squeeze16 A s) a b c = Ok (pk3 16 R 8 a b c).
  Proof.
    intros HA. unfold pack3_zip.
    assert (reg R 0) as H0 by (unfold reg; pose proof (pow2_pos R); destruct s; cbn [rbits] in *; lia).
    assert (forall L env, reg R (lsh 16 R 8 L env)) as HR by (intros; apply (rsel s I16)).
    repeat pstep. cbn [eb]. fix_n.
    match goal with |- bind (squeeze16 A s ?u) _ = _ => assert (u = lsh 16 R 8 (p_z 8 0) [a; b; c]) as E0 by (clear HR; destruct s; cbn [rbits] in *; selg 16); rewrite E0; clear E0 end.
    rewrite squeeze16_ok by (first [assumption | lia]). cbn [bind].
    match goal with |- bind (squeeze16 A s ?u) _ = _ => assert (u = lsh 16 R 8 (p_z 8 1) [a; b; c]) as E1 by (clear HR; destruct s; cbn [rbits] in *; selg 16); rewrite E1; clear E1 end.
    rewrite squeeze16_ok by (first [assumption | lia]). cbn [bind].
    match goal with |- bind (squeeze16 A s ?u) _ = _ => assert (u = lsh 16 R 8 (p_z 8 2) [a; b; c]) as E2 by (clear HR; destruct s; cbn [rbits] in *; selg 16); rewrite E2; clear E2 end.
    rewrite squeeze16_ok by (first [assumption | lia]). cbn [bind].
    match goal with |- bind (squeeze16 A s ?u) _ = _ => assert (u = lsh 16 R 8 (p_z 8 3) [a; b; c]) as E3 by (clear HR; destruct s; cbn [rbits] in *; selg 16); rewrite E3; clear E3 end.
    rewrite squeeze16_ok by (first [assumption | lia]). cbn [bind].
    unfold pack3_tail. rewrite !i_move_r_ok, !i_move_l_ok, i_shuffle2_ok by (first [apply HR | ps]). cbn [bind].
    assert (avail_int A (wb W32) s = true) as H32 by (change (avail_et A I32 s = true); ps).
    rewrite !i_bit_or_ok by (first [apply HR | exact H32 | ps]). cbn [bind].
    unfold pk3. clear HR. cbn [eb]. fix_n. leq; destruct s; cbn [rbits] in *; selg 16.
  Qed.
End P3.
Section PPerm.
  Variables (A : arch) (a b c : Z).
  Hypothesis HV : valid_arch A = true.
  Hypotheses (HS : use_sse2 A = false) (HN : use_null A = false).
  Hypotheses (Ha : reg 128 a) (Hb : reg 128 b) (Hc : reg 128 c).
  Ltac mstep e q := rewrite (bl_ok A HV e q) by ps; cbn [bind].
  Lemma pack3_8_perm_ok : pack3_8_perm A R128 a b c = Ok (pk3 8 128 16 a b c).
  Proof.
    assert (avail_et A I8 R128 = true) as HA by reflexivity. unfold pack3_8_perm. cbv zeta.
    change 128 with (rbits R128) in *. repeat pstep. rewrite ol by ps. cbn [bind].
    repeat mstep I8 (fun k => k + 5 <? en I8). repeat pstep. unfold pk3. cbn [eb rbits] in *. fix_n. leq; selg 16.
  Qed.
  Lemma pack3_16_perm_ok : pack3_16_perm A R128 a b c = Ok (pk3 16 128 8 a b c).
  Proof.
    assert (avail_et A I8 R128 = true) as HA by reflexivity. unfold pack3_16_perm. cbv zeta.
    change 128 with (rbits R128) in *. repeat pstep. rewrite ol by ps. cbn [bind].
    repeat mstep I16 (fun k => k + 2 <? en I16). repeat pstep. unfold pk3. cbn [eb rbits] in *. fix_n. leq; selg 16.
  Qed.
  Lemma pack3_32_perm_ok e : e = I32 \/ e = F32 -> pack3_32_perm A R128 e a b c = Ok (pk3 32 128 4 a b c).
  Proof.
    intros HE. assert (avail_et A I8 R128 = true) as HA by reflexivity. unfold pack3_32_perm. cbv zeta.
    change 128 with (rbits R128) in *. destruct HE as [-> | ->].
    - repeat (rewrite i_align_ok by (first [ps | cbn; lia]); cbn [bind]). rewrite ol by ps. cbn [bind].
      repeat mstep I32 (fun k => k + 1 <? en I32). repeat pstep. unfold pk3. cbn [eb rbits] in *. fix_n. leq; selg 16.
    - repeat (rewrite i_align_ok by (first [ps | cbn; lia]); cbn [bind]). rewrite ol by ps. cbn [bind].
      repeat (rewrite (blf_ok A HV (fun k => k + 1 <? en I32)) by ps; cbn [bind]). repeat pstep. unfold pk3. cbn [eb rbits] in *. fix_n. leq; selg 16.
  Qed.
End PPerm.
Section P4.
  Variables (A : arch) (s : rsz) (a b c d : Z).
  Hypothesis HV : valid_arch A = true.
  Notation R := (rbits s).
  Hypotheses (Ha : reg R a) (Hb : reg R b) (Hc : reg R c) (Hd : reg R d).
  Lemma pack4_8_inplace_ok : avail_et A I8 s = true -> use_ssse3 A || use_altivec A || use_msa A = true ->
    pack4_8_inplace A s a b c d = Ok (pk4 8 R 16 a b c d).
  Proof.
    intros HA HC. unfold pack4_8_inplace.
    rewrite i_transpose4_ok by ps. cbn [bind]. unfold ok4. rewrite !(inplace_ok A s a b c d) by ps. cbn [bind]. unfold pk4.
    leq; destruct s; cbn [rbits eb] in *; selg 16.
  Qed.
  Lemma pack4_zip_8_ok : avail_et A I8 s = true -> pack4_zip A s I8 I16 a b c d = Ok (pk4 8 R 16 a b c d).
  Proof.
    intros HA. unfold pack4_zip. repeat pstep. unfold pk4. cbn [eb]; fix_n. leq; destruct s; cbn [rbits] in *; selg 16.
  Qed.
  Lemma pack4_zip_16_ok : avail_et A I16 s = true -> pack4_zip A s I16 I32 a b c d = Ok (pk4 16 R 8 a b c d).
  Proof.
    intros HA. unfold pack4_zip. repeat pstep. unfold pk4. cbn [eb]; fix_n. leq; destruct s; cbn [rbits] in *; selg 16.
  Qed.
  Lemma ptr4_ok e : avail_et A e s = true -> e = I32 \/ e = F32 -> tr4 A s e a b c d = Ok (pk4 32 R 4 a b c d).
  Proof.
    intros HA HE. unfold tr4. rewrite i_transpose4_ok by (first [ps | destruct HE as [-> | ->]; reflexivity]). cbn [bind]. unfold ok4, pk4.
    leq; destruct HE as [-> | ->]; destruct s; cbn [rbits eb] in *; selg 16.
  Qed.
  Lemma pack4_64_ok e : avail_et A e s = true -> e = I64 \/ e = F64 -> pack4_64 A s e a b c d = Ok (pk4 64 R 2 a b c d).
  Proof.
    intros HA HE. unfold pack4_64. rewrite !i_transpose2_ok by (first [ps | destruct HE as [-> | ->]; discriminate]). cbn [bind fst snd]. unfold pk4.
    leq; destruct HE as [-> | ->]; destruct s; cbn [rbits eb] in *; selg 16.
  Qed.
End P4.
Lemma pack3_impl_ok A s e a b c : valid_arch A = true -> avail_et A e s = true ->
  reg (rbits s) a -> reg (rbits s) b -> reg (rbits s) c ->
  pack3_impl A s e a b c = Ok (pk3 (eb e) (rbits s) (en e) a b c).
Proof.
  intros HV HA Ha Hb Hc. unfold pack3_impl. cbv zeta. destruct (use_altivec A || use_msa A) eqn:EC.
  - pose proof (am_128 A e s HV HA EC). subst s. destruct (not_sse2 A HV EC) as (H1 & H2 & _). cbn [rbits] in *. destruct e.
    + apply pack3_8_perm_ok; assumption.
    + apply pack3_16_perm_ok; assumption.
    + apply pack3_32_perm_ok; try assumption. left; reflexivity.
    + apply (pack3_64_ok A R128); try assumption. left; reflexivity.
    + apply pack3_32_perm_ok; try assumption. right; reflexivity.
    + apply (pack3_64_ok A R128); try assumption. right; reflexivity.
  - destruct e.
    + apply pack3_zip_8_ok; assumption.
    + apply pack3_zip_16_ok; assumption.
    + apply pack3_32_shuf_ok; try assumption. left; reflexivity.
    + apply pack3_64_ok; try assumption. left; reflexivity.
    + apply pack3_32_shuf_ok; try assumption. right; reflexivity.
    + apply pack3_64_ok; try assumption. right; reflexivity.
Qed.
Lemma pack4_impl_ok A s e a b c d : valid_arch A = true -> avail_et A e s = true ->
  reg (rbits s) a -> reg (rbits s) b -> reg (rbits s) c -> reg (rbits s) d ->
  pack4_impl A s e a b c d = Ok (pk4 (eb e) (rbits s) (en e) a b c d).
Proof.
  intros HV HA Ha Hb Hc Hd. unfold pack4_impl. destruct e.
  - destruct (use_ssse3 A || use_altivec A || use_msa A) eqn:EC; [apply pack4_8_inplace_ok | apply pack4_zip_8_ok]; assumption.
  - apply pack4_zip_16_ok; assumption.
  - apply ptr4_ok; try assumption. left; reflexivity.
  - apply pack4_64_ok; try assumption. left; reflexivity.
  - apply ptr4_ok; try assumption. right; reflexivity.
  - apply pack4_64_ok; try assumption. right; reflexivity.
Qed.
Lemma mem_pack_ok A s e l : valid_arch A = true -> avail_et A e s = true -> (2 <= length l <= 4)%nat -> Forall (reg (rbits s)) l ->
  mem_pack A s e l = Ok (packed (eb e) (rbits s) l).
Proof.
  intros HV HA HL HF.
  destruct l as [|a [|b [|c [|d [|? ?]]]]]; cbn [length] in HL; try lia; cbn [mem_pack];
  repeat match goal with H : Forall _ (_ :: _) |- _ => inversion_clear H end.
  - unfold mem_pack2. rewrite !i_zip_ok by assumption. cbn [bind].
    destruct s; cbn [rbits] in *; expand; leq; destruct e; cbn [eb rbits]; fix_n; expand; selw.
  - unfold mem_pack3. rewrite pack3_impl_ok by assumption. cbn [bind]. unfold pk3. cbn [g nth]. unfold pack3_shuffle128.
    destruct s; cbn [rbits] in *; expand; leq; destruct e; cbn [eb rbits]; fix_n; expand; selw.
  - unfold mem_pack4. rewrite pack4_impl_ok by assumption. cbn [bind]. unfold pk4. cbn [g nth]. unfold pack4_shuffle128.
    destruct s; cbn [rbits unpack4_shuffle128] in *; expand; leq; destruct e; cbn [eb rbits]; fix_n; expand; selw.
Qed.
