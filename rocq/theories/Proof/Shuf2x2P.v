(** shuffle2x2: for which selectors it selects the right lanes, on every instruction set. *)
From Verif Require Export Proof.Shuf4x2P Model.Shuf2x2.

(** the selector pairs for which the code is right *)
Definition ok2x2 (A : arch) (e : et) (s : rsz) (s0 s1 : Z) : bool :=
  let both := ((s0 <? 2) && (s1 <? 2)) || ((2 <=? s0) && (2 <=? s1)) in
  let is x y := (s0 =? x) && (s1 =? y) in
  let w41 := match s with R128 => use_sse41 A | _ => true end in
  match e with
  | F32 => negb (use_sse2 A) || both || (w41 && (is 0 3 || is 2 1))
  | I32 => negb (use_sse2 A) || both ||
           (w41 && (match s with R256 => false | _ => true end) && (is 0 3 || is 2 1))
  | F64 => if use_sse2 A then both || (s0 <? 2) || is 2 0 || is 3 1 || (w41 && is 2 1)
           else if use_neon A then true
           else if use_vsx206 A then both || (s0 <? 2) || is 2 0 || is 3 1 else true
  | I64 => if use_sse2 A then
             (s0 <? 2) || (match s with R512 => (2 <=? s0) && (2 <=? s1) | _ => false end) ||
             is 2 0 || is 3 1 || (w41 && is 2 1) ||
             (match s with R128 => use_ssse3 A | R256 => true | R512 => false end && is 3 0)
           else if use_neon A then true
           else if use_vsx207 A then both || (s0 <? 2) || is 2 0 || is 3 1 else true
  | _ => false
  end.
Lemma mask_ok_2 s0 s1 : 0 <= s0 < 4 -> 0 <= s1 < 4 -> mask_ok 32 (shuffle_mask_bytes 4 [s0; s1]) = true.
Proof. intros. enum. Qed.
Lemma shuffle_mask_2_ok A s0 s1 a b : valid_arch A = true -> has_shuffle_bytes A = true ->
  0 <= s0 < 4 -> 0 <= s1 < 4 -> reg 128 a -> reg 128 b ->
  shuffle_mask A R128 4 [s0; s1] a b = Ok (lsh 32 128 2 (p_shuffle2x2 s0 s1) [a; b]).
Proof.
  intros HV HB H0 H1 Ha Hb. unfold shuffle_mask, make_shuffle_bytes16_mask.
  rewrite shuf_mask_ok by (auto using mask_ok_2). okc. cbn [rbits]. selg 16.
Qed.
Lemma vshf_2_ok A s0 s1 a b : valid_arch A = true -> 0 <= s0 < 4 -> 0 <= s1 < 4 -> reg 128 a -> reg 128 b ->
  msa_shuffle2x2_32 A s0 s1 a b =
  Ok (lsh 32 128 2 (p_shuffle2x2 s0 s1) [a; b]).
Proof.
  intros HV H0 H1 Ha Hb. unfold msa_shuffle2x2_32. cbv zeta. rewrite vshf_4_ok; auto.
  - okc. selg 16.
  - destruct (Z.ltb_spec s0 2); lia.
  - destruct (Z.ltb_spec s1 2); lia.
  - destruct (Z.ltb_spec s0 2); lia.
  - destruct (Z.ltb_spec s1 2); lia.
Qed.
Lemma vshf_sel64 c a b : 0 <= c < 4 ->
  (let j := wrap 6 c mod (2 * (128 / 64)) in
   if negb (lane 2 3 c =? 0) then 0 else if j <? 128 / 64 then lane 64 j a else lane 64 (j - 128 / 64) b) =
  match p_cat 2 c with None => 0 | Some (m, j) => lane 64 j (nth m [a; b] 0) end.
Proof. intros H. four c H; reflexivity. Qed.
Lemma vshf_2d_ok A s0 s1 a b : valid_arch A = true -> 0 <= s0 < 4 -> 0 <= s1 < 4 ->
  (let* m := i_make_const A W64 R128 [s0; s1] 0 in Ok (msa_vshf 64 m b a)) =
  Ok (lsh 64 128 2 (p_shuffle2x2 s0 s1) [a; b]).
Proof.
  intros HV H0 H1. rewrite i_make_const_ok by (auto; cbn; lia). cbn [bind wb rbits]. f_equal.
  apply eq_lsh; [reflexivity|apply v1_reg; reflexivity|]. intros g k Hg Hk.
  assert (g = 0) as -> by (change (128 / (2 * 64)) with 1 in Hg; lia). rewrite !Z.mul_0_r, !Z.add_0_l.
  unfold msa_vshf. rewrite lane_v1 by (auto; reflexivity). rewrite lane_pack by (auto; reflexivity).
  assert (forall x, 0 <= x < 4 -> wrap 64 x = x) as HW by (intros; apply wrap_small; lia).
  two k Hk; unfold cval_at; cbn [length Z.of_nat Pos.of_succ_nat Pos.succ];
  match goal with |- context [Z.to_nat ?e] => let v := eval lazy in (Z.to_nat e) in change (Z.to_nat e) with v end; cbn [nth];
  match goal with |- context [wrap 64 ?x] => is_var x; rewrite (HW x) by assumption;
    pose proof (vshf_sel64 x a b) as HX; cbv zeta in HX; rewrite HX by assumption end;
  unfold p_shuffle2x2; cbn [Z.eqb Pos.eqb]; unfold p_cat;
  match goal with |- context [?x <? 2] => destruct (x <? 2) end; cbn [nth]; rewrite Z.add_0_l; apply wrap_lane.
Qed.

Ltac sse2x2 A H0 H1 HO :=
  match type of H0 with 0 <= ?s0 < _ => four s0 H0 end;
  match type of H1 with 0 <= ?s1 < _ => four s1 H1 end;
  cbn [Z.ltb Z.leb Z.eqb Z.compare Pos.compare Pos.compare_cont Pos.eqb andb orb negb] in HO |- *; try discriminate;
  destruct (use_sse41 A); try destruct (use_ssse3 A); cbn [Z.ltb Z.leb Z.eqb Z.compare Pos.compare Pos.compare_cont Pos.eqb andb orb negb] in HO |- *; try discriminate HO; clear HO;
  first [selg 16 | selg 32 | selg 64].
Lemma sse2x2_32_ok A e s s0 s1 a b : e = I32 \/ e = F32 -> use_sse2 A = true ->
  0 <= s0 < 4 -> 0 <= s1 < 4 -> reg (rbits s) a -> reg (rbits s) b -> ok2x2 A e s s0 s1 = true ->
  sse_shuffle2x2_32 A e s s0 s1 a b = lsh 32 (rbits s) 2 (p_shuffle2x2 s0 s1) [a; b].
Proof.
  intros He HS H0 H1 Ha Hb HO. unfold ok2x2 in HO. rewrite HS in HO.
  unfold sse_shuffle2x2_32.
  destruct He as [-> | ->]; destruct s; cbn [rbits negb orb] in *; sse2x2 A H0 H1 HO.
Qed.
Lemma sse2x2_64_ok A s s0 s1 a b : use_sse2 A = true ->
  0 <= s0 < 4 -> 0 <= s1 < 4 -> reg (rbits s) a -> reg (rbits s) b -> ok2x2 A I64 s s0 s1 = true ->
  sse_shuffle2x2_64 A s s0 s1 a b = lsh 64 (rbits s) 2 (p_shuffle2x2 s0 s1) [a; b].
Proof.
  intros HS H0 H1 Ha Hb HO. unfold ok2x2 in HO. rewrite HS in HO.
  unfold sse_shuffle2x2_64.
  destruct s; cbn [rbits negb orb] in *; sse2x2 A H0 H1 HO.
Qed.
Lemma sse2x2_f64_ok A s s0 s1 a b : use_sse2 A = true ->
  0 <= s0 < 4 -> 0 <= s1 < 4 -> reg (rbits s) a -> reg (rbits s) b -> ok2x2 A F64 s s0 s1 = true ->
  sse_shuffle2x2_f64 A s s0 s1 a b = lsh 64 (rbits s) 2 (p_shuffle2x2 s0 s1) [a; b].
Proof.
  intros HS H0 H1 Ha Hb HO. unfold ok2x2 in HO. rewrite HS in HO.
  unfold sse_shuffle2x2_f64.
  destruct s; cbn [rbits negb orb] in *; sse2x2 A H0 H1 HO.
Qed.
Lemma vsx2x2_ok s0 s1 a b :
  0 <= s0 < 4 -> 0 <= s1 < 4 -> reg 128 a -> reg 128 b ->
  ((s0 <? 2) && (s1 <? 2)) || ((2 <=? s0) && (2 <=? s1)) || (s0 <? 2) || ((s0 =? 2) && (s1 =? 0)) || ((s0 =? 3) && (s1 =? 1)) = true ->
  vsx_shuffle2x2 s0 s1 a b = lsh 64 128 2 (p_shuffle2x2 s0 s1) [a; b].
Proof.
  intros H0 H1 Ha Hb HO. unfold vsx_shuffle2x2.
  four s0 H0; four s1 H1; cbn [Z.ltb Z.leb Z.eqb Z.compare Pos.compare Pos.compare_cont Pos.eqb andb orb negb] in HO |- *; try discriminate HO; clear HO; selg 16.
Qed.
Lemma null2x2_ok w s0 s1 a b :
  null_shuffle2x2 w s0 s1 a b = lsh w 128 2 (p_shuffle2x2 s0 s1) [a; b].
Proof. reflexivity. Qed.
Lemma i_shuffle2x2_ok A e s s0 s1 a b : valid_arch A = true -> avail_et A e s = true ->
  0 <= s0 < 4 -> 0 <= s1 < 4 -> reg (rbits s) a -> reg (rbits s) b -> ok2x2 A e s s0 s1 = true ->
  i_shuffle2x2 A e s s0 s1 a b = Ok (lsh (eb e) (rbits s) 2 (p_shuffle2x2 s0 s1) [a; b]).
Proof.
  intros HV HA H0 H1 Ha Hb HO.
  destruct e; try discriminate; cbn [i_shuffle2x2 avail_et eb] in *;
  unfold i_shuffle2x2_32, i_shuffle2x2_64, i_shuffle2x2_f64, use_neon64;
  destruct s; cbn [rbits] in *.
  all: lad HV HA ltac:(idtac; first 
    [ apply shuffle_mask_2_ok; auto; fail | apply vshf_2_ok; auto; fail | apply vshf_2d_ok; auto; fail
    | f_equal; first [ apply null2x2_ok | apply n32_shuffle2x2_lsh; auto; fail | apply n64_shuffle2x2_lsh; auto; fail 
      | apply (sse2x2_32_ok _ _ R128); auto; fail
      | apply (sse2x2_32_ok _ _ R256); auto; fail
      | apply (sse2x2_32_ok _ _ R512); auto; fail
      | apply (sse2x2_64_ok _ R128); auto; fail
      | apply (sse2x2_64_ok _ R256); auto; fail
      | apply (sse2x2_64_ok _ R512); auto; fail
      | apply (sse2x2_f64_ok _ R128); auto; fail
      | apply (sse2x2_f64_ok _ R256); auto; fail
      | apply (sse2x2_f64_ok _ R512); auto; fail
      | apply vsx2x2_ok; auto; revert HO; unfold ok2x2; rw_flags; intros HO; exact HO ]]).
Qed.
