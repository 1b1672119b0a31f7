(** C16 (two-source shuffles), C17 (unzip), C19 (align). *)
From Verif Require Import Proof.UnzipP Model.ShufApi2 Thm.T_Shuffle.

Theorem unzip_lo_spec : forall A e s, valid_arch A = true -> avail_et A e s = true ->
  computesS2 (eb e) s (en e) (unzip_lo A e s) (p_unzip_lo (en e)).
Proof.
  intros A e s HV HA. apply liftS2; [apply gok_en|destruct e; reflexivity|].
  intros. apply i_unzip_lo_ok; auto.
Qed.
Theorem unzip_hi_spec : forall A e s, valid_arch A = true -> avail_et A e s = true ->
  computesS2 (eb e) s (en e) (unzip_hi A e s) (p_unzip_hi (en e)).
Proof.
  intros A e s HV HA. apply liftS2; [apply gok_en|destruct e; reflexivity|].
  intros. apply i_unzip_hi_ok; auto.
Qed.
Theorem align_spec : forall A e s sh, valid_arch A = true -> avail_et A e s = true -> 0 <= sh <= en e ->
  computesS2 (eb e) s (en e) (align A e s sh) (p_align (en e) sh).
Proof.
  intros A e s sh HV HA Hs. pose proof (en_pos e). apply liftS2; [apply gok_en|inr|].
  intros. apply i_align_ok; auto.
Qed.
(** 64-bit lanes: the only element types it exists for *)
Theorem shuffle1_spec : forall A e s s0 s1, valid_arch A = true -> avail_et A e s = true -> e = I64 \/ e = F64 ->
  0 <= s0 < 2 -> 0 <= s1 < 2 ->
  computesS2 (eb e) s 2 (shuffle1 A e s s0 s1) (p_shuffle1 s0 s1).
Proof.
  intros A e s s0 s1 HV HA He H0 H1. apply liftS2; [apply gok2|inr|].
  intros a b Ha Hb. unfold i_shuffle1. rewrite i_shuffle2x2_ok; auto; try lia.
  - f_equal. apply lsh_ext; [apply gok2|]. intros k Hk. unfold p_shuffle2x2, p_shuffle1, p_cat.
    destruct (k =? 0); match goal with |- context [?x <? 2] => destruct (Z.ltb_spec x 2); try lia end; try reflexivity.
    do 2 f_equal; lia.
  - unfold ok2x2. assert (s0 <? 2 = true) as -> by (apply Z.ltb_lt; lia).
    destruct He as [-> | ->]; rewrite ?orb_true_r; cbn [orb andb]; rewrite ?orb_true_r;
    destruct (use_sse2 A), (use_neon A), (use_vsx206 A), (use_vsx207 A); cbn [orb]; rewrite ?orb_true_r; reflexivity.
Qed.
Theorem shuffle2_spec : forall A e s a0 a1 b0 b1, valid_arch A = true -> avail_et A e s = true -> e = I32 \/ e = F32 ->
  0 <= a0 < 4 -> 0 <= a1 < 4 -> 0 <= b0 < 4 -> 0 <= b1 < 4 ->
  computesS2 32 s 4 (shuffle2 A e s a0 a1 b0 b1) (p_shuffle2 a0 a1 b0 b1).
Proof.
  intros A e s a0 a1 b0 b1 HV HA He H0 H1 H2 H3. apply liftS2; [destruct s; reflexivity|inr|].
  intros. apply i_shuffle2_ok; auto.
Qed.
Theorem shuffle2_2_spec : forall A e s s0 s1, valid_arch A = true -> avail_et A e s = true -> e = I32 \/ e = F32 ->
  0 <= s0 < 4 -> 0 <= s1 < 4 ->
  computesS2 32 s 4 (shuffle2_2 A e s s0 s1) (p_shuffle2 s0 s1 s0 s1).
Proof. intros. apply (shuffle2_spec A e s s0 s1 s0 s1); auto. Qed.
(** 32-bit lanes; 64-bit lanes: Thm/T_Perm64.v *)
Theorem shuffle4x2_spec : forall A e s s0 s1 s2 s3, valid_arch A = true -> avail_et A e s = true -> e = I32 \/ e = F32 ->
  0 <= s0 < 8 -> 0 <= s1 < 8 -> 0 <= s2 < 8 -> 0 <= s3 < 8 ->
  computesS2 32 s 4 (shuffle4x2 A e s s0 s1 s2 s3) (p_shuffle4x2 s0 s1 s2 s3).
Proof.
  intros A e s s0 s1 s2 s3 HV HA He H0 H1 H2 H3. apply liftS2; [destruct s; reflexivity|inr|].
  intros. apply i_shuffle4x2_ok; auto.
Qed.
(** shuffle2x2: right for the selector pairs of [ok2x2], on the instruction sets it is
    implemented for.  Missing: the other pairs, for which it is wrong (below). *)
Theorem shuffle2x2_partial : forall A e s s0 s1, valid_arch A = true -> avail_et A e s = true ->
  e <> I8 -> e <> I16 -> use_null A || use_sse2 A || use_neon A = true ->
  0 <= s0 < 4 -> 0 <= s1 < 4 -> ok2x2 A e s s0 s1 = true ->
  computesS2 (eb e) s 2 (shuffle2x2 A e s s0 s1) (p_shuffle2x2 s0 s1).
Proof.
  intros A e s s0 s1 HV HA He He' HI H0 H1 HO. unfold shuffle2x2. rewrite HI. apply liftS2; [apply gok2|inr|].
  intros. apply i_shuffle2x2_ok; auto.
Qed.
(** every selector pair is right off x86 ... *)
Theorem ok2x2_no_x86 : forall A e s s0 s1, valid_arch A = true -> use_sse2 A = false -> use_null A || use_neon A = true -> 
  e <> I8 -> e <> I16 -> ok2x2 A e s s0 s1 = true.
Proof.
  intros A e s s0 s1 HV HS HN H8 H16. unfold ok2x2. rewrite HS.
  assert (use_neon A = true \/ use_vsx206 A = false /\ use_vsx207 A = false) as HH.
  { revert HN. fam HV; intros HN; cbn [orb] in HN; auto; try discriminate. }
  destruct e; try (exfalso; auto; fail); cbn [negb orb]; auto; destruct HH as [E | [E1 E2]]; rewrite ?E, ?E1, ?E2; auto; destruct (use_neon A); reflexivity.
Qed.
(** ... and on x86 every pair outside [ok2x2] gives a wrong vector for some arguments. *)
Definition probe (w R o : Z) : Z := pack w R (fun i => i + o).
Lemma reg_probe w R o : wok w R = true -> reg R (probe w R o).
Proof. apply pack_reg. Qed.
Definition differs (r : res Z) (r' : Z) : bool := match r with Ok x => negb (x =? r') | _ => true end.
Lemma shuffle2x2_bad A e s s0 s1 : valid_arch A = true -> avail_et A e s = true -> e <> I8 -> e <> I16 -> use_sse2 A = true ->
  0 <= s0 < 4 -> 0 <= s1 < 4 -> ok2x2 A e s s0 s1 = false ->
  differs (i_shuffle2x2 A e s s0 s1 (probe (eb e) (rbits s) 1) (probe (eb e) (rbits s) 64))
    (lsh (eb e) (rbits s) 2 (p_shuffle2x2 s0 s1) [probe (eb e) (rbits s) 1; probe (eb e) (rbits s) 64]) = true.
Proof.
  intros HV HA H8 H16 HS H0 H1 HO.
  assert (use_null A = false) as HN by (destruct (use_null A) eqn:E; auto; vimp HV).
  unfold ok2x2 in HO. rewrite HS in HO.
  destruct e; try (exfalso; auto; fail); cbn [i_shuffle2x2];
  unfold i_shuffle2x2_32, i_shuffle2x2_64, i_shuffle2x2_f64; rewrite ?HS, ?HN; destruct s; cbn [avail_et avail_int avail_flt] in HA;
  repeat match goal with |- context [if ?f A then _ else NotImpl] =>
    first [ replace (f A) with true by (symmetry; first [ exact HA | destruct (f A) eqn:?; [reflexivity|vimp HV] ]) | destruct (f A) eqn:?; [|reflexivity] ] end;
  unfold sse_shuffle2x2_32, sse_shuffle2x2_64, sse_shuffle2x2_f64; destruct (use_sse41 A); try destruct (use_ssse3 A);
  four s0 H0; four s1 H1; first [discriminate HO | vm_compute; reflexivity].
Qed.
Theorem shuffle2x2_refuted : forall A e s s0 s1, valid_arch A = true -> avail_et A e s = true ->
  e <> I8 -> e <> I16 -> use_sse2 A = true ->
  0 <= s0 < 4 -> 0 <= s1 < 4 -> ok2x2 A e s s0 s1 = false ->
  ~ computesS2 (eb e) s 2 (shuffle2x2 A e s s0 s1) (p_shuffle2x2 s0 s1).
Proof.
  intros A e s s0 s1 HV HA H8 H16 HS H0 H1 HO HC.
  assert (wok (eb e) (rbits s) = true) as HW by (destruct e, s; reflexivity).
  pose proof (reg_probe (eb e) (rbits s) 1 HW) as Ra. pose proof (reg_probe (eb e) (rbits s) 64 HW) as Rb.
  pose proof (shuffle2x2_bad A e s s0 s1 HV HA H8 H16 HS H0 H1 HO) as HB.
  set (a := probe (eb e) (rbits s) 1) in *. set (b := probe (eb e) (rbits s) 64) in *.
  assert (computesS2 (eb e) s 2 (vec_impl2 (fun x y => Ok (lsh (eb e) (rbits s) 2 (p_shuffle2x2 s0 s1) [x; y]))) (p_shuffle2x2 s0 s1)) as HD.
  { apply liftS2; [apply gok2|inr|auto]. }
  assert (wfv s [a]) as Wa by (constructor; [exact Ra|constructor]).
  assert (wfv s [b]) as Wb by (constructor; [exact Rb|constructor]).
  destruct (HC [a] [b] Wa Wb eq_refl) as (r & E & Wr & Lr & V).
  destruct (HD [a] [b] Wa Wb eq_refl) as (r' & E' & Wr' & Lr' & V').
  rewrite <- V' in V.
  unfold shuffle2x2 in E. rewrite HS in E. rewrite orb_true_r in E. cbn [orb] in E.
  cbn in E, E'. destruct (i_shuffle2x2 A e s s0 s1 a b) as [x| |] eqn:EX; try discriminate.
  injection E as <-. injection E' as <-. 
  assert (x = lsh (eb e) (rbits s) 2 (p_shuffle2x2 s0 s1) [a; b]) as EE.
  { apply Forall_inv in Wr. apply Forall_inv in Wr'. apply (reg_lanes (eb e) (rbits s)); auto. intros i Hi.
    destruct (wok_spec _ _ HW) as (_ & _ & _ & En).
    unfold lanes in V. cbn [flat_map] in V. rewrite !app_nil_r in V.
    apply (f_equal (fun l => nth (Z.to_nat i) l 0)) in V. rewrite !nth_elems in V by lia. rewrite Z2Nat.id in V by lia. exact V. }
  rewrite EE in HB. unfold differs in HB. rewrite Z.eqb_refl in HB. discriminate HB.
Qed.
(** shuffle2x2 does not exist on AltiVec and MSA. *)
Theorem shuffle2x2_not_implemented : forall A e s s0 s1 va vb, use_null A || use_sse2 A || use_neon A = false ->
  shuffle2x2 A e s s0 s1 va vb = NotImpl.
Proof. intros A e s s0 s1 va vb H. unfold shuffle2x2. rewrite H. reflexivity. Qed.
Example shuffle2_case :
  shuffle2x2 arch_sse2 F32 R128 0 2 [0x00000004000000030000000200000001] [0x00000008000000070000000600000005]
    = Ok [0x00000006000000020000000500000001] /\
  shuffle2x2 arch_neon32 I32 R128 0 2 [0x00000004000000030000000200000001] [0x00000008000000070000000600000005]
    = Ok [0x00000007000000030000000500000001] /\
  ok2x2 arch_sse2 F32 R128 0 2 = false /\ ok2x2 arch_sse2 F32 R128 0 1 = true /\
  shuffle4x2 arch_ssse3 F32 R128 0 4 1 6 [0x00000004000000030000000200000001] [0x00000008000000070000000600000005]
    = Ok [0x00000007000000020000000500000001] /\
  unzip_hi arch_sse2 I16 R128 [0x00080007000600050004000300020001] [0x00100009000800070006000500040003]
    = Ok [0x00100008000600040008000600040002] /\
  align arch_sse2 I32 R128 3 [0x00000004000000030000000200000001] [0x00000008000000070000000600000005]
    = Ok [0x00000007000000060000000500000004].
Proof.
  split; [vm_compute; reflexivity|]. split; [vm_compute; reflexivity|]. split; [vm_compute; reflexivity|].
  split; [vm_compute; reflexivity|]. split; [vm_compute; reflexivity|]. split; vm_compute; reflexivity.
Qed.
