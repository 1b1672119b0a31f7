(** mem_pack / mem_unpack: which element of which register goes where. *)
From Verif Require Export Model.Packed Proof.TransposeP Proof.Shuf2x2P Proof.ShiftP Proof.BlendP Proof.FloatsP3.

(** element N*k+j of N consecutive registers of n elements; element k of register r of N
    interleaved ones *)
Definition p_unpack (n N j k : Z) : src := let x := N * k + j in Some (Z.to_nat (x / n), x mod n).
Definition p_packed (n N r k : Z) : src := let x := n * r + k in Some (Z.to_nat (x mod N), x / N).

(** blends with constant masks are selections *)
Definition p_blend (q : Z -> bool) (k : Z) : src := if q k then fromA k else fromB k.
Lemma bsel_lsh w R n q a b : gok w R n = true -> reg R a -> reg R b ->
  bsel a b (tfv w R (fun i => q (i mod n))) = lsh w R n (p_blend q) [a; b].
Proof.
  intros HG Ha Hb. destruct (gok_spec _ _ _ HG) as (Hw & Hp & HR & Hn & E & E2).
  rewrite bsel_tfv by assumption. apply eq_lsh; [exact HG|apply pack_reg; exact Hw|]. intros g k Hg Hk.
  rewrite lane_pack by (auto; nia). rewrite grp_mod by auto. unfold p_blend.
  destruct (q k); cbn [nth]; apply wrap_lane.
Qed.
Definition ew_of (e : et) : ew := match e with I8 => W8 | I16 => W16 | I32 | F32 => W32 | I64 | F64 => W64 end.
Lemma en_gok e s : gok (eb e) (rbits s) (en e) = true.
Proof. destruct e, s; reflexivity. Qed.
Lemma blend_e_ok A e s q a b : valid_arch A = true -> avail_et A e s = true -> reg (rbits s) a -> reg (rbits s) b ->
  blend_e A e s a b (tfv (eb e) (rbits s) (fun i => q (i mod en e))) = Ok (lsh (eb e) (rbits s) (en e) (p_blend q) [a; b]).
Proof.
  intros HV HA Ha Hb. rewrite <- bsel_lsh by (auto using en_gok).
  destruct e; cbn [blend_e avail_et eb] in *.
  - apply (i_blend_ok A W8 s); auto.
  - apply (i_blend_ok A W16 s); auto.
  - apply (i_blend_ok A W32 s); auto.
  - apply (i_blend_ok A W64 s); auto.
  - apply (f_blend_ok A false s); auto.
  - apply (f_blend_ok A true s); auto.
Qed.
Lemma ones_l_ok A s e sh : valid_arch A = true -> avail_et A e s = true -> e = I8 \/ e = I16 \/ e = I32 ->
  0 <= sh < en e -> (sh =? 0) = false ->
  ones_l A s e (ew_of e) sh = Ok (tfv (eb e) (rbits s) (fun i => (i mod en e) + sh <? en e)).
Proof.
  intros HV HA HE Hs Hn. unfold ones_l.
  assert (EW : wb (ew_of e) = eb e) by (destruct HE as [-> | [-> | ->]]; reflexivity).
  rewrite konst_ok by (auto; destruct HE as [-> | [-> | ->]]; exact HA). cbn [bind]. rewrite EW.
  pose proof (en_gok e s) as HG. destruct (gok_spec _ _ _ HG) as (Hw & Hp & HR & Hn' & E & E2).
  rewrite i_move_l_ok by (auto; apply splat_reg; auto). f_equal.
  apply eq_tfv; auto. intros i Hi.
  rewrite (Z.div_mod i (en e)) at 1 by lia. pose proof (Z.mod_pos_bound i (en e) Hn').
  rewrite lane_lsh.
  - unfold p_move_l. destruct (i mod en e + sh <? en e) eqn:EL; [|reflexivity].
    apply Z.ltb_lt in EL. cbn [nth]; unfold tf. rewrite lane_splat; auto.
    + rewrite wrap_small; auto. unfold ones. pose proof (pow2_pos (eb e)). lia.
    + assert (i / en e < rbits s / (en e * eb e)). { apply Z.div_lt_upper_bound; lia. } pose proof (Z.div_pos i (en e)). nia.
  - auto.
  - auto.
  - split; [apply Z.div_pos; lia|]. apply Z.div_lt_upper_bound; lia.
Qed.
(** constant masks of all-ones and zero elements *)
Definition q_of (w : Z) (l : list Z) (k : Z) : bool := nth (Z.to_nat k) l 0 =? ones w.
Lemma const_tfv (A : arch) (w : ew) (s : rsz) l n : valid_arch A = true -> avail_int A (wb w) s = true ->
  n = Z.of_nat (length l) -> 0 < n -> forallb (fun c => (c =? 0) || (c =? ones (wb w))) l = true ->
  i_make_const A w s l 0 = Ok (tfv (wb w) (rbits s) (fun i => q_of (wb w) l (i mod n))).
Proof.
  intros HV HA -> Hn HF. rewrite i_make_const_ok by (auto; lia). f_equal.
  apply pack_ext; [destruct w, s; reflexivity|]. intros i Hi. unfold cval_at, q_of. rewrite Z.add_0_l.
  rewrite forallb_forall in HF. specialize (HF (nth (Z.to_nat (i mod Z.of_nat (length l))) l 0)).
  assert (0 <= i mod Z.of_nat (length l) < Z.of_nat (length l)) by (apply Z.mod_pos_bound; lia).
  rewrite orb_true_iff, !Z.eqb_eq in HF. destruct HF as [-> | ->]; [apply nth_In; lia|..].
  - replace (0 =? ones (wb w)) with false by (destruct w; reflexivity). reflexivity.
  - rewrite Z.eqb_refl. reflexivity.
Qed.
(** pshufb with a constant mask *)
Lemma pshufb_const R a l : gok 8 R 16 = true -> reg R a -> Z.of_nat (length l) = 16 ->
  forallb (fun c => ((0 <=? c) && (c <? 16)) || ((128 <=? c) && (c <? 256))) l = true ->
  mm_shuffle_epi8 R a (pack 8 R (fun k => cval_at l (0 + k))) = lsh 8 R 16 (mask_sel l) [a; a].
Proof.
  intros HG Ha HL HF. destruct (gok_spec _ _ _ HG) as (HR & _ & _ & _ & E & E2).
  apply eq_lsh; [exact HG|apply pack_reg; exact HR|]. intros g k Hg Hk. unfold mm_shuffle_epi8.
  assert (0 <= 16 * g + k < R / 8) by nia.
  rewrite lane_pack by auto. cbv zeta. rewrite lane_pack by auto. unfold cval_at. rewrite HL, Z.add_0_l, grp_mod by lia.
  unfold mask_sel. set (c := nth (Z.to_nat k) l 0).
  assert (0 <= c < 16 \/ 128 <= c < 256) as HC.
  { rewrite forallb_forall in HF. specialize (HF c). rewrite orb_true_iff, !andb_true_iff, !Z.leb_le, !Z.ltb_lt in HF.
    apply HF. apply nth_In. lia. }
  rewrite (wrap_small 8 c) by (change (2 ^ 8) with 256; lia).
  rewrite grp_div by lia.
  destruct (Z.leb_spec 128 c); [reflexivity|]. destruct (Z.ltb_spec c 16); [|lia].
  cbn [nth]. rewrite wrap_lane. f_equal. rewrite Z.mod_small by lia. lia.
Qed.

Section U.
  Variables (A : arch) (s : rsz).
  Hypothesis HV : valid_arch A = true.
  Notation R := (rbits s).
  Lemma wok_eb e : wok (eb e) R = true.
  Proof. destruct e, s; reflexivity. Qed.
  Lemma rsel e n L env : reg R (lsh (eb e) R n L env).
  Proof. apply lsh_reg, wok_eb. Qed.
  Lemma rsel32 n L env : reg R (lsh 32 R n L env).
  Proof. apply (rsel I32). Qed.
  Lemma rsel8 n L env : reg R (lsh 8 R n L env).
  Proof. apply (rsel I8). Qed.
  Lemma av8_32 : avail_et A I8 s = true -> avail_et A I32 s = true.
  Proof. intros. apply avail_i32, avail_i16; auto. Qed.
  Lemma av8_64 : avail_et A I8 s = true -> avail_et A I64 s = true.
  Proof. intros. apply avail_i64, av8_32; auto. Qed.
  Lemma av16_64 : avail_et A I16 s = true -> avail_et A I64 s = true.
  Proof. intros. apply avail_i64, avail_i32; auto. Qed.
  Lemma sh1_ok e s0 s1 a b : avail_et A e s = true -> e = I64 \/ e = F64 -> 0 <= s0 < 2 -> 0 <= s1 < 2 -> reg R a -> reg R b ->
    i_shuffle1 A e s s0 s1 a b = Ok (lsh (eb e) R 2 (p_shuffle1 s0 s1) [a; b]).
  Proof.
    intros HA HE H0 H1 Ha Hb. unfold i_shuffle1. rewrite i_shuffle2x2_ok; try assumption; try lia.
    - apply f_equal. apply lsh_ext; [destruct HE as [-> | ->]; destruct s; reflexivity|]. intros k Hk. unfold p_shuffle2x2, p_shuffle1, p_cat.
      destruct (k =? 0); [destruct (Z.ltb_spec s0 2); [reflexivity|lia]|].
      destruct (Z.ltb_spec (s1 + 2) 2); [lia|]. do 2 f_equal. lia.
    - unfold ok2x2. replace (s0 <? 2) with true by (symmetry; apply Z.ltb_lt; lia).
      destruct HE as [-> | ->]; destruct (use_sse2 A), (use_neon A), (use_vsx207 A), (use_vsx206 A); rewrite ?orb_true_r; reflexivity.
  Qed.
  Lemma sm_ok k l a b : avail_et A I8 s = true -> s = R128 -> use_sse2 A = false -> use_null A = false ->
    reg R a -> reg R b -> mask_ok 32 (shuffle_mask_bytes k l) = true ->
    shuffle_mask A s k l a b = Ok (lsh 8 R 16 (mask_sel (shuffle_mask_bytes k l)) [a; b]).
  Proof.
    intros HA Hs HS HN Ha Hb Hm. unfold shuffle_mask, make_shuffle_bytes16_mask. apply shuf_mask_ok; auto using has_sb_sse2.
  Qed.
End U.
Ltac ps := lazymatch goal with
  | |- reg _ (lsh 32 _ _ _ _) => apply rsel32
  | |- reg _ (lsh 8 _ _ _ _) => apply rsel8
  | |- reg _ (lsh _ _ _ _ _) => apply rsel
  | |- reg _ _ => assumption
  | |- mask_ok _ _ = true => vm_compute; reflexivity
  | |- avail_int _ _ _ = true => solve [auto using avail_i16, avail_i32, avail_i64, av8_32, av8_64, av16_64]
  | |- avail_et _ _ _ = true => solve [auto using avail_i16, avail_i32, avail_i64, av8_32, av8_64, av16_64]
  | |- valid_arch _ = true => assumption
  | |- (_ =? _) = false => reflexivity
  | |- _ <= _ < en _ => solve [split; [vm_compute; discriminate | vm_compute; first [discriminate|reflexivity]]]
  | |- _ <= _ <= en _ => solve [split; [vm_compute; discriminate | vm_compute; first [discriminate|reflexivity]]]
  | |- _ <= _ < _ => lia
  | |- _ \/ _ => solve [auto]
  | |- _ => first [assumption | reflexivity | discriminate]
  end.
Ltac pstep := first
  [ rewrite i_zip_ok by ps | rewrite i_align_ok by ps | rewrite i_move_l_ok by ps | rewrite i_move_r_ok by ps
  | rewrite i_unzip_lo_ok by ps | rewrite i_unzip_hi_ok by ps
  | rewrite sh1_ok by ps | rewrite i_splat_n_ok by ps | rewrite i_shuffle2_ok by ps | rewrite i_permute4_ok by ps
  | rewrite sm_ok by ps
  | rewrite i_bit_or_ok by ps ]; cbn [bind].
Lemma cons_eq (x y : Z) l l' : x = y -> l = l' -> x :: l = y :: l'.
Proof. congruence. Qed.
Ltac leq := apply f_equal; repeat (apply cons_eq; [|]); [..|reflexivity].
Definition un3 (w R n a b c : Z) : list Z :=
  [lsh w R n (p_unpack n 3 0) [a; b; c]; lsh w R n (p_unpack n 3 1) [a; b; c]; lsh w R n (p_unpack n 3 2) [a; b; c]].
Definition un4 (w R n a b c d : Z) : list Z :=
  [lsh w R n (p_unpack n 4 0) [a; b; c; d]; lsh w R n (p_unpack n 4 1) [a; b; c; d];
   lsh w R n (p_unpack n 4 2) [a; b; c; d]; lsh w R n (p_unpack n 4 3) [a; b; c; d]].
Section U3.
  Variables (A : arch) (s : rsz) (a b c : Z).
  Hypothesis HV : valid_arch A = true.
  Notation R := (rbits s).
  Hypotheses (Ha : reg R a) (Hb : reg R b) (Hc : reg R c).
  Lemma unpack3_64_ok e : avail_et A e s = true -> e = I64 \/ e = F64 -> unpack3_64 A s e a b c = Ok (un3 (eb e) R 2 a b c).
  Proof.
    intros HA HE. unfold unpack3_64. repeat pstep. unfold un3. leq; destruct HE as [-> | ->]; cbn [eb]; destruct s; cbn [rbits] in *; selg 16.
  Qed.
  Lemma unpack3_32_shuf_ok e : avail_et A e s = true -> e = I32 \/ e = F32 -> unpack3_32_shuf A s e a b c = Ok (un3 (eb e) R 4 a b c).
  Proof.
    intros HA HE. unfold unpack3_32_shuf. repeat pstep. unfold un3. leq; destruct HE as [-> | ->]; cbn [eb]; destruct s; cbn [rbits] in *; selg 16.
  Qed.
  Lemma unpack3_16_zip_ok : avail_et A I16 s = true -> unpack3_16_zip A s a b c = Ok (un3 16 R 8 a b c).
  Proof.
    intros HA. unfold unpack3_16_zip. repeat pstep. unfold un3. cbn [eb]; fix_n. leq; destruct s; cbn [rbits] in *; selg 16.
  Qed.
End U3.
(** one pass of mem_unpack3 on bytes: four rows of twelve bytes, transposed *)
Definition p4x12 (j k : Z) : src := let y := 16 * j + k in let x := 12 * (y mod 4) + y / 4 in Some (Z.to_nat (x / 16), x mod 16).
Lemma layer12 A s a b c {X} (k : Z -> Z -> Z -> res X) : valid_arch A = true -> avail_et A I8 s = true ->
  reg (rbits s) a -> reg (rbits s) b -> reg (rbits s) c ->
  (let* t1 := i_align A I8 s 12 a b in
   let* t2 := i_align A I8 s 8 b c in
   let* t3 := i_move_l A I8 s 4 c in
   let* b0 := i_zip A I8 s false a t1 in let* b1 := i_zip A I8 s false t2 t3 in
   let* b2 := i_zip A I8 s true a t1 in let* b3 := i_zip A I8 s true t2 t3 in
   let* u0 := i_zip A I16 s false b0 b1 in let* u1 := i_zip A I16 s true b0 b1 in let* u2 := i_zip A I16 s false b2 b3 in
   k u0 u1 u2) =
  k (lsh 8 (rbits s) 16 (p4x12 0) [a; b; c]) (lsh 8 (rbits s) 16 (p4x12 1) [a; b; c]) (lsh 8 (rbits s) 16 (p4x12 2) [a; b; c]).
Proof.
  intros HV HA Ha Hb Hc. repeat pstep. cbn [eb]; fix_n.
  apply f_equal3; destruct s; cbn [rbits] in *; selg 16.
Qed.
Lemma unpack3_8_zip_ok A s a b c : valid_arch A = true -> avail_et A I8 s = true ->
  reg (rbits s) a -> reg (rbits s) b -> reg (rbits s) c ->
  unpack3_8_zip A s a b c = Ok (un3 8 (rbits s) 16 a b c).
Proof.
  intros HV HA Ha Hb Hc. unfold unpack3_8_zip.
  etransitivity; [apply layer12; assumption|].
  etransitivity; [apply layer12; try assumption; apply rsel8|].
  unfold un3. leq; destruct s; cbn [rbits] in *; selg 16.
Qed.
(** AltiVec and MSA *)
Section Perm.
  Variables (A : arch) (a b c : Z).
  Hypothesis HV : valid_arch A = true.
  Hypotheses (HS : use_sse2 A = false) (HN : use_null A = false).
  Hypotheses (Ha : reg 128 a) (Hb : reg 128 b) (Hc : reg 128 c).
  Lemma bl_ok e q x y : avail_et A e R128 = true -> reg 128 x -> reg 128 y ->
    blend_e A e R128 x y (tfv (eb e) 128 (fun i => q (i mod en e))) = Ok (lsh (eb e) 128 (en e) (p_blend q) [x; y]).
  Proof. intros. apply (blend_e_ok A e R128); auto. Qed.
  Lemma blf_ok q x y : reg 128 x -> reg 128 y ->
    blend_e A F32 R128 x y (tfv 32 128 (fun i => q (i mod 4))) = Ok (lsh 32 128 4 (p_blend q) [x; y]).
  Proof. intros. apply (blend_e_ok A F32 R128); auto. Qed.
  Lemma ol e w sh : w = ew_of e -> avail_et A e R128 = true -> e = I8 \/ e = I16 \/ e = I32 -> 0 <= sh < en e -> (sh =? 0) = false ->
    ones_l A R128 e w sh = Ok (tfv (eb e) 128 (fun i => (i mod en e) + sh <? en e)).
  Proof. intros ->. apply (ones_l_ok A R128); auto. Qed.
  Ltac mstep e q := rewrite (bl_ok e q) by ps; cbn [bind].
  Lemma unpack3_8_perm_ok : unpack3_8_perm A R128 a b c = Ok (un3 8 128 16 a b c).
  Proof.
    assert (avail_et A I8 R128 = true) as HA by reflexivity. unfold unpack3_8_perm. cbv zeta.
    change 128 with (rbits R128) in *. repeat pstep. rewrite ol by ps. cbn [bind].
    repeat mstep I8 (fun k => k + 5 <? en I8). repeat pstep. unfold un3. cbn [eb rbits] in *. fix_n. leq; selg 16.
  Qed.
  Lemma unpack3_16_perm_ok : unpack3_16_perm A R128 a b c = Ok (un3 16 128 8 a b c).
  Proof.
    assert (avail_et A I8 R128 = true) as HA by reflexivity. unfold unpack3_16_perm. cbv zeta.
    change 128 with (rbits R128) in *. repeat pstep. rewrite ol by ps. cbn [bind].
    repeat mstep I16 (fun k => k + 2 <? en I16). repeat pstep. unfold un3. cbn [eb rbits] in *. fix_n. leq; selg 16.
  Qed.
  Lemma unpack3_32_perm_ok e : e = I32 \/ e = F32 -> unpack3_32_perm A R128 e a b c = Ok (un3 32 128 4 a b c).
  Proof.
    intros HE. assert (avail_et A I8 R128 = true) as HA by reflexivity. unfold unpack3_32_perm. cbv zeta.
    change 128 with (rbits R128) in *. repeat pstep. rewrite ol by ps. cbn [bind].
    destruct HE as [-> | ->].
    - repeat mstep I32 (fun k => k + 1 <? en I32). repeat pstep. unfold un3. cbn [eb rbits] in *. fix_n. leq; selg 16.
    - repeat (rewrite (blf_ok (fun k => k + 1 <? en I32)) by ps; cbn [bind]). repeat pstep. unfold un3. cbn [eb rbits] in *. fix_n. leq; selg 16.
  Qed.
End Perm.
Section U4.
  Variables (A : arch) (s : rsz) (a b c d : Z).
  Hypothesis HV : valid_arch A = true.
  Notation R := (rbits s).
  Hypotheses (Ha : reg R a) (Hb : reg R b) (Hc : reg R c) (Hd : reg R d).
  Lemma inplace_ok x : avail_et A I8 s = true -> use_ssse3 A || use_altivec A || use_msa A = true -> reg R x ->
    transpose_inplace A s x = Ok (lsh 8 R 16 (mask_sel [0; 4; 8; 12; 1; 5; 9; 13; 2; 6; 10; 14; 3; 7; 11; 15]) [x; x]).
  Proof.
    intros HA HC Hx. unfold transpose_inplace.
    assert (has_permute_bytes A = true) as HB.
    { unfold has_permute_bytes. destruct (use_ssse3 A) eqn:E1; [rewrite andb_false_r; reflexivity|].
      destruct (use_sse2 A) eqn:E2; [|reflexivity]. exfalso. rewrite orb_true_iff in HC. destruct HC as [HC | HC]; [cbn in HC|]; vimp HV. }
    pose proof (perm_mask_ok A s [0; 4; 8; 12; 1; 5; 9; 13; 2; 6; 10; 14; 3; 7; 11; 15] x HV HA HB Hx eq_refl) as E.
    rewrite E. clear E HB. rewrite HC. destruct s; cbn [avail_et eb] in HA; [reflexivity|..]; lad HV HA ltac:(reflexivity).
  Qed.
  Lemma unpack4_8_inplace_ok : avail_et A I8 s = true -> use_ssse3 A || use_altivec A || use_msa A = true ->
    unpack4_8_inplace A s a b c d = Ok (un4 8 R 16 a b c d).
  Proof.
    intros HA HC. unfold unpack4_8_inplace. rewrite !inplace_ok by ps. cbn [bind].
    rewrite i_transpose4_ok by ps. cbn [bind]. unfold ok4, un4. leq; destruct s; cbn [rbits eb] in *; selg 16.
  Qed.
  Lemma unpack4_8_zip_ok : avail_et A I8 s = true -> unpack4_8_zip A s a b c d = Ok (un4 8 R 16 a b c d).
  Proof.
    intros HA. unfold unpack4_8_zip. repeat pstep. unfold un4. cbn [eb]; fix_n. leq; destruct s; cbn [rbits] in *; selg 16.
  Qed.
  Lemma unpack4_16_ok : avail_et A I16 s = true -> unpack4_16 A s a b c d = Ok (un4 16 R 8 a b c d).
  Proof.
    intros HA. unfold unpack4_16. repeat pstep. unfold un4. cbn [eb]; fix_n. leq; destruct s; cbn [rbits] in *; selg 16.
  Qed.
  Lemma tr4_ok e : avail_et A e s = true -> e = I32 \/ e = F32 -> tr4 A s e a b c d = Ok (un4 32 R 4 a b c d).
  Proof.
    intros HA HE. unfold tr4. rewrite i_transpose4_ok by (first [ps | destruct HE as [-> | ->]; reflexivity]). cbn [bind]. unfold ok4, un4.
    leq; destruct HE as [-> | ->]; destruct s; cbn [rbits eb] in *; selg 16.
  Qed.
  Lemma unpack4_64_ok e : avail_et A e s = true -> e = I64 \/ e = F64 -> unpack4_64 A s e a b c d = Ok (un4 64 R 2 a b c d).
  Proof.
    intros HA HE. unfold unpack4_64. rewrite !i_transpose2_ok by (first [ps | destruct HE as [-> | ->]; discriminate]). cbn [bind fst snd]. unfold un4.
    leq; destruct HE as [-> | ->]; destruct s; cbn [rbits eb] in *; selg 16.
  Qed.
End U4.
(** whole registers *)
Definition unpacked (w R : Z) (l : list Z) : list Z :=
  map (fun j => lsh w R (R / w) (p_unpack (R / w) (Z.of_nat (length l)) j) l) (zrange (Z.of_nat (length l))).
Definition packed (w R : Z) (l : list Z) : list Z :=
  map (fun r => lsh w R (R / w) (p_packed (R / w) (Z.of_nat (length l)) r) l) (zrange (Z.of_nat (length l))).
Ltac expand := unfold unpacked, packed; cbn [length Z.of_nat Pos.of_succ_nat Pos.succ];
  repeat match goal with |- context [zrange ?n] => let v := eval vm_compute in (zrange n) in change (zrange n) with v end;
  cbn [map];
  repeat match goal with |- context [?x / ?y] =>
    lazymatch x with 128 => idtac | 256 => idtac | 512 => idtac end;
    let v := eval vm_compute in (x / y) in change (x / y) with v end.
Ltac selw := lazymatch goal with |- _ = lsh _ ?R _ _ _ => let G := eval vm_compute in (R / 8) in selg G end.
Lemma r128 s0 s1 a b : reg 256 (shuf1_128 s0 s1 a b).
Proof. apply lsh_reg. reflexivity. Qed.
Lemma r512 s0 s1 s2 s3 a b : reg 512 (shuffle2_128 s0 s1 s2 s3 a b).
Proof. apply lsh_reg. reflexivity. Qed.
Lemma r512p s0 s1 s2 s3 a : reg 512 (permute4_128 s0 s1 s2 s3 a).
Proof. apply lsh_reg. reflexivity. Qed.
Ltac rsh := cbn [g nth]; lazymatch goal with
  | |- reg _ (shuf1_128 _ _ _ _) => apply r128
  | |- reg _ (shuffle2_128 _ _ _ _ _ _) => apply r512
  | |- reg _ (permute4_128 _ _ _ _ _) => apply r512p
  | |- reg _ (lsh _ _ _ _ _) => apply lsh_reg; reflexivity
  | |- _ => assumption end.

Lemma not_sse2 A : valid_arch A = true -> use_altivec A || use_msa A = true ->
  use_sse2 A = false /\ use_null A = false /\ use_avx2 A = false /\ use_avx A = false /\ use_avx512f A = false /\ use_avx512bw A = false.
Proof.
  intros HV HC. destruct (use_sse2 A) eqn:E1, (use_null A) eqn:E2, (use_avx2 A) eqn:E3, (use_avx A) eqn:E4, (use_avx512f A) eqn:E5, (use_avx512bw A) eqn:E6;
  auto 10; exfalso; apply orb_true_iff in HC as [HC | HC]; vimp HV.
Qed.
Lemma am_128 A e s : valid_arch A = true -> avail_et A e s = true -> use_altivec A || use_msa A = true -> s = R128.
Proof.
  intros HV HA HC. destruct (not_sse2 A HV HC) as (_ & _ & H1 & H2 & H3 & H4). destruct s; auto; exfalso;
  destruct e; cbn in HA; rewrite ?H1, ?H2, ?H3, ?H4 in HA; discriminate.
Qed.
Lemma unpack3_impl_ok A s e a b c : valid_arch A = true -> avail_et A e s = true ->
  reg (rbits s) a -> reg (rbits s) b -> reg (rbits s) c ->
  unpack3_impl A s e a b c = Ok (un3 (eb e) (rbits s) (en e) a b c).
Proof.
  intros HV HA Ha Hb Hc. unfold unpack3_impl. cbv zeta. destruct (use_altivec A || use_msa A) eqn:EC.
  - pose proof (am_128 A e s HV HA EC). subst s. destruct (not_sse2 A HV EC) as (H1 & H2 & _). cbn [rbits] in *. destruct e.
    + apply unpack3_8_perm_ok; assumption.
    + apply unpack3_16_perm_ok; assumption.
    + apply unpack3_32_perm_ok; try assumption. left; reflexivity.
    + apply (unpack3_64_ok A R128); try assumption. left; reflexivity.
    + apply unpack3_32_perm_ok; try assumption. right; reflexivity.
    + apply (unpack3_64_ok A R128); try assumption. right; reflexivity.
  - destruct e.
    + apply unpack3_8_zip_ok; assumption.
    + apply unpack3_16_zip_ok; assumption.
    + apply unpack3_32_shuf_ok; try assumption. left; reflexivity.
    + apply unpack3_64_ok; try assumption. left; reflexivity.
    + apply unpack3_32_shuf_ok; try assumption. right; reflexivity.
    + apply unpack3_64_ok; try assumption. right; reflexivity.
Qed.
Lemma unpack4_impl_ok A s e a b c d : valid_arch A = true -> avail_et A e s = true ->
  reg (rbits s) a -> reg (rbits s) b -> reg (rbits s) c -> reg (rbits s) d ->
  unpack4_impl A s e a b c d = Ok (un4 (eb e) (rbits s) (en e) a b c d).
Proof.
  intros HV HA Ha Hb Hc Hd. unfold unpack4_impl. destruct e.
  - destruct (use_ssse3 A || use_altivec A || use_msa A) eqn:EC; [apply unpack4_8_inplace_ok | apply unpack4_8_zip_ok]; assumption.
  - apply unpack4_16_ok; assumption.
  - apply tr4_ok; try assumption. left; reflexivity.
  - apply unpack4_64_ok; try assumption. left; reflexivity.
  - apply tr4_ok; try assumption. right; reflexivity.
  - apply unpack4_64_ok; try assumption. right; reflexivity.
Qed.
Lemma mem_unpack_ok A s e l : valid_arch A = true -> avail_et A e s = true -> (2 <= length l <= 4)%nat -> Forall (reg (rbits s)) l ->
  mem_unpack A s e l = Ok (unpacked (eb e) (rbits s) l).
Proof.
  intros HV HA HL HF.
  destruct l as [|a [|b [|c [|d [|? ?]]]]]; cbn [length] in HL; try lia; cbn [mem_unpack];
  repeat match goal with H : Forall _ (_ :: _) |- _ => inversion_clear H end.
  - unfold mem_unpack2. destruct s; cbn [rbits] in *.
    + rewrite i_unzip_lo_ok, i_unzip_hi_ok by (cbn [rbits]; assumption). cbn [bind].
      expand. leq; destruct e; cbn [eb rbits]; fix_n; expand; selw.
    + rewrite i_unzip_lo_ok, i_unzip_hi_ok by (cbn [rbits]; first [assumption | rsh]). cbn [bind].
      expand. leq; destruct e; cbn [eb rbits]; fix_n; expand; selw.
    + rewrite i_unzip_lo_ok, i_unzip_hi_ok by (cbn [rbits]; first [assumption | rsh]). cbn [bind].
      expand. leq; destruct e; cbn [eb rbits]; fix_n; expand; selw.
  - unfold mem_unpack3. cbv zeta. destruct s; cbn [unpack3_shuffle128 rbits] in *;
    (rewrite unpack3_impl_ok by (first [eassumption | cbn [rbits]; rsh]));
    unfold un3; expand; leq; cbn [g nth]; destruct e; cbn [eb rbits]; fix_n; expand; selw.
  - unfold mem_unpack4. cbv zeta. destruct s; cbn [unpack4_shuffle128 rbits] in *;
    (rewrite unpack4_impl_ok by (first [eassumption | cbn [rbits]; rsh]));
    unfold un4; expand; leq; cbn [g nth]; destruct e; cbn [eb rbits]; fix_n; expand; selw.
Qed.
