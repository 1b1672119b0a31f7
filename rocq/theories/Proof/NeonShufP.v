(** The NEON permutation helpers select the lanes they should. *)
From Verif Require Export Proof.BytesP Model.NeonShuf.

Ltac four s H := let E := fresh in assert (s = 0 \/ s = 1 \/ s = 2 \/ s = 3) as E by lia; clear H;
  destruct E as [E|[E|[E|E]]]; subst s.
Ltac two s H := let E := fresh in assert (s = 0 \/ s = 1) as E by lia; clear H; destruct E as [E|E]; subst s.

Lemma Sel_vbslq (c d : bool) R G env w k x y M N : Sel c R G x env M -> Sel d R G y env N ->
  Sel (c && d && bytemask w k && okb w R (G / (w / 8)) G &&
       forallb (fun j => match M j, N j with _, _ => true end) (zrange G)) R G
    (vbslq (splat w R k) x y) env (fun j => if ffb w k j then M j else N j).
Proof.
  intros Hx Hy HC. rewrite !andb_true_iff in HC. destruct HC as ((((Hc & Hd) & Hb) & Ho) & _).
  pose proof (Sel_land_r R G env c w k x M Hx) as H1. pose proof (Sel_ldiff_r R G env d w k y N Hy) as H2.
  unfold vbslq. rewrite Z.land_comm.
  destruct (Sel_lor R G env _ _ _ _ _ _ H1 H2) as [HG HE].
  - rewrite Hc, Hd, Hb, Ho. cbn [andb]. apply forallb_forall. intros j _.
    destruct (ffb w k j); [destruct (M j); reflexivity|reflexivity].
  - split; auto. rewrite HE. apply lsh_ext; auto. intros j Hj. unfold merge.
    destruct (ffb w k j); destruct (M j), (N j); reflexivity.
Qed.

Lemma reg_vget_low a : reg 64 (vget_low a).
Proof. apply lane_range. lia. Qed.
Lemma reg_vget_high a : reg 64 (vget_high a).
Proof. apply lane_range. lia. Qed.
#[global] Hint Resolve reg_vget_low reg_vget_high : core.
(** ---------------- int32x4 ---------------- *)
Lemma n32_shf2x2_lsh s0 s1 a b : 0 <= s0 < 4 -> 0 <= s1 < 4 -> reg 64 a -> reg 64 b ->
  n32_shf2x2 s0 s1 a b = lsh 32 64 2 (p_shuffle2x2 s0 s1) [a; b].
Proof.
  intros H0 H1 Ha Hb. four s0 H0; four s1 H1; unfold n32_shf2x2; cbv zeta; cbn [Z.add Z.mul Pos.mul Pos.add]; selg 8.
Qed.
Lemma n32_shf_1x2_lsh s0 s1 a b : 0 <= s0 < 2 -> 0 <= s1 < 2 -> reg 64 a -> reg 64 b ->
  n32_shf_1x2 s0 s1 a b = lsh 32 64 2 (p_shuffle1 s0 s1) [a; b].
Proof.
  intros H0 H1 Ha Hb. two s0 H0; two s1 H1; unfold n32_shf_1x2; cbv zeta; cbn [Z.add Z.mul Pos.mul Pos.add]; selg 8.
Qed.
Lemma reg_sel_lo_hi k a b : reg 64 (n32_sel_lo_hi k a b).
Proof. unfold n32_sel_lo_hi. destruct k as [|[?|?|]|?]; auto; try (destruct p; auto). Qed.
#[global] Hint Resolve reg_sel_lo_hi : core.
Definition sel_half (k : Z) : src :=
  if k <? 8 then fromA k else if k <? 16 then fromA k else if k <? 24 then fromB (k - 16) else fromB (k - 16).
Lemma Sel_sel_lo_hi env c d a b M N k : Sel c 128 16 a env M -> Sel d 128 16 b env N ->
  Sel (c && d && (0 <=? k) && (k <? 4)) 64 8 (n32_sel_lo_hi k a b) env
    (fun j => if k <? 2 then M (8 * k + j) else N (8 * (k - 2) + j)).
Proof.
  intros Ha Hb HC. rewrite !andb_true_iff, Z.leb_le, Z.ltb_lt in HC. destruct HC as (((Hc & Hd) & H0) & H4).
  assert (k = 0 \/ k = 1 \/ k = 2 \/ k = 3) as E by lia.
  destruct E as [E|[E|[E|E]]]; subst k; cbn [n32_sel_lo_hi].
  - destruct (Sel_vget_low _ _ _ _ Ha Hc) as [HG HE]. split; auto.
  - destruct (Sel_vget_high _ _ _ _ Ha Hc) as [HG HE]. split; auto.
  - destruct (Sel_vget_low _ _ _ _ Hb Hd) as [HG HE]. split; auto.
  - destruct (Sel_vget_high _ _ _ _ Hb Hd) as [HG HE]. split; auto.
Qed.
Ltac sdiv := first [ assumption | split; [apply Z.div_pos; lia|apply Z.div_lt_upper_bound; lia]
                   | apply Z.mod_pos_bound; lia | lia | solve [auto] ].
Lemma vdup_half_lo w n a : 0 < w -> 64 mod w = 0 -> 0 <= n < 64 / w -> vdup_lane w 128 n (vget_low a) = splat w 128 (lane w n a).
Proof.
  intros. unfold vdup_lane, vget_low. f_equal.
  assert (64 = w * (64 / w)) as E by (pose proof (Z.div_mod 64 w); lia). rewrite E at 1.
  rewrite lane_lane by lia. reflexivity.
Qed.
Lemma vdup_half_hi w n a : 0 < w -> 64 mod w = 0 -> 0 <= n < 64 / w ->
  vdup_lane w 128 n (vget_high a) = splat w 128 (lane w (64 / w + n) a).
Proof.
  intros. unfold vdup_lane, vget_high. f_equal.
  assert (64 = w * (64 / w)) as E by (pose proof (Z.div_mod 64 w); lia). rewrite E at 1.
  rewrite lane_lane by lia. f_equal. lia.
Qed.
Lemma n32_bcast_lsh n a : 0 <= n < 4 -> reg 128 a -> n32_bcast n a = lsh 32 128 4 (p_splat n) [a].
Proof.
  intros Hn Ha. four n Hn; unfold n32_bcast; cbn [Z.ltb Z.compare Pos.compare Pos.compare_cont];
  repeat match goal with |- context [?x mod 2] => let y := eval compute in (x mod 2) in change (x mod 2) with y end;
  rewrite ?vdup_half_lo, ?vdup_half_hi by (try reflexivity; cbn; lia); selg 16.
Qed.
Ltac sel_ext e ::= lazymatch e with
  | n32_bcast _ _ => rewrite n32_bcast_lsh by sdiv
  | n32_shf2x2 _ _ _ _ => rewrite n32_shf2x2_lsh by sdiv
  | n32_shf_1x2 _ _ _ _ => rewrite n32_shf_1x2_lsh by sdiv
  end.
Lemma n32_permute4_lsh s0 s1 s2 s3 a : 0 <= s0 < 4 -> 0 <= s1 < 4 -> 0 <= s2 < 4 -> 0 <= s3 < 4 -> reg 128 a ->
  n32_permute4 s0 s1 s2 s3 a = lsh 32 128 4 (p_permute4 s0 s1 s2 s3) [a].
Proof.
  intros H0 H1 H2 H3 Ha. unfold n32_permute4. selg 16.
Qed.
Lemma n32_shuffle2x2_lsh s0 s1 a b : 0 <= s0 < 4 -> 0 <= s1 < 4 -> reg 128 a -> reg 128 b ->
  n32_shuffle2x2 s0 s1 a b = lsh 32 128 2 (p_shuffle2x2 s0 s1) [a; b].
Proof. intros H0 H1 Ha Hb. unfold n32_shuffle2x2. selg 16. Qed.
Lemma lane32_combine lo hi k : 0 <= k < 4 -> lane 32 k (vcombine lo hi) = lane 32 (k mod 2) (if k <? 2 then lo else hi).
Proof.
  intros Hk. unfold vcombine. rewrite (lane_pack_sub 32 2 128) by (try reflexivity; change (128 / 32) with 4; lia).
  f_equal. four k Hk; reflexivity.
Qed.
Definition cat_lane (w n s a b : Z) : Z := if s <? n then lane w s a else lane w (s - n) b.
Lemma lane32_sel_lo_hi s a b : 0 <= s < 8 ->
  lane 32 (s mod 2) (n32_sel_lo_hi (s / 2) a b) = cat_lane 32 4 s a b.
Proof.
  intros Hs. assert (s = 0 \/ s = 1 \/ s = 2 \/ s = 3 \/ s = 4 \/ s = 5 \/ s = 6 \/ s = 7) as E by lia.
  destruct E as [E|[E|[E|[E|[E|[E|[E|E]]]]]]]; subst s;
  match goal with |- lane _ ?x (n32_sel_lo_hi ?y _ _) = _ =>
    let x' := eval compute in x in let y' := eval compute in y in change x with x'; change y with y' end;
  unfold n32_sel_lo_hi, vget_low, vget_high, cat_lane; change 64 with (32 * 2); rewrite lane_lane by lia; reflexivity.
Qed.
Lemma lane32_shf4x2 s0 s1 a b i : 0 <= s0 < 8 -> 0 <= s1 < 8 -> 0 <= i < 2 ->
  lane 32 i (n32_shf4x2 s0 s1 a b) = cat_lane 32 4 (if i =? 0 then s0 else s1) a b.
Proof.
  intros H0 H1 Hi. unfold n32_shf4x2. rewrite n32_shf_1x2_lsh by sdiv.
  two i Hi; cbn [Z.eqb].
  - pose proof (lane_lsh 32 64 2 (p_shuffle1 (s0 mod 2) (s1 mod 2)) [n32_sel_lo_hi (s0 / 2) a b; n32_sel_lo_hi (s1 / 2) a b] 0 0
      eq_refl ltac:(lia) ltac:(cbn; lia)) as E. cbn [Z.mul Z.add] in E. rewrite E. cbn. apply lane32_sel_lo_hi; auto.
  - pose proof (lane_lsh 32 64 2 (p_shuffle1 (s0 mod 2) (s1 mod 2)) [n32_sel_lo_hi (s0 / 2) a b; n32_sel_lo_hi (s1 / 2) a b] 0 1
      eq_refl ltac:(lia) ltac:(cbn; lia)) as E. cbn [Z.mul Z.add] in E. rewrite E. cbn. apply lane32_sel_lo_hi; auto.
Qed.
Lemma n32_shuffle4x2_lsh s0 s1 s2 s3 a b : 0 <= s0 < 8 -> 0 <= s1 < 8 -> 0 <= s2 < 8 -> 0 <= s3 < 8 ->
  n32_shuffle4x2 s0 s1 s2 s3 a b = lsh 32 128 4 (p_shuffle4x2 s0 s1 s2 s3) [a; b].
Proof.
  intros H0 H1 H2 H3. apply eq_lsh; [reflexivity|apply pack_reg; reflexivity|].
  intros g k Hg Hk. assert (g = 0) as -> by (change (128 / (4 * 32)) with 1 in Hg; lia). rewrite Z.mul_0_r, Z.add_0_l.
  unfold n32_shuffle4x2. rewrite lane32_combine by auto.
  four k Hk; cbn [Z.ltb Z.compare Pos.compare Pos.compare_cont];
  repeat match goal with |- context [?x mod 2] => let y := eval compute in (x mod 2) in change (x mod 2) with y end;
  rewrite lane32_shf4x2 by lia; unfold cat_lane, p_shuffle4x2, p_cat; cbn [Z.eqb Pos.eqb];
  match goal with |- context [?s <? 4] => destruct (s <? 4) end; reflexivity.
Qed.

(** ---------------- int64x2 ---------------- *)
Lemma n64_move_hi_lsh a b : reg 128 a -> reg 128 b ->
  n64_move_hi a b = lsh 64 128 2 (fun k => if k =? 0 then fromA 0 else fromB 1) [a; b].
Proof.
  intros Ha Hb. apply eq_lsh; [reflexivity| |].
  { unfold n64_move_hi, vbslq. assert (reg 128 (pack 64 128 (fun i => if i =? 0 then 2 ^ 64 - 1 else 0))) by (apply pack_reg; reflexivity).
    auto using lor_reg', land_reg', ldiff_reg'. }
  intros g k Hg Hk. assert (g = 0) as -> by (change (128 / (2 * 64)) with 1 in Hg; lia). rewrite Z.mul_0_r, Z.add_0_l.
  unfold n64_move_hi, vbslq. rewrite lane_lor, lane_land, lane_ldiff by lia.
  rewrite lane_pack by (try reflexivity; change (128 / 64) with 2; lia).
  pose proof (lane_range 64 k a ltac:(lia)). pose proof (lane_range 64 k b ltac:(lia)).
  two k Hk; cbn [Z.eqb].
  - change (wrap 64 (2 ^ 64 - 1)) with (Z.ones 64). rewrite Z.land_comm, Z.land_ones, Z.mod_small, Z.ldiff_ones_r_low; try lia.
    rewrite Z.lor_0_r. reflexivity.
    destruct (Z.eq_dec (lane 64 0 b) 0) as [->|]; [cbn; lia|]. apply Z.log2_lt_pow2; lia.
  - change (wrap 64 0) with 0. rewrite Z.ldiff_0_r. reflexivity.
Qed.
Ltac zmatch := repeat match goal with
  | |- context [?x * ?y + ?z] => lazymatch x with Z0 => idtac | Zpos _ => idtac end;
       let r := eval compute in (x * y + z) in change (x * y + z) with r end; cbv iota.
Lemma n64_permute2_lsh A s0 s1 a : 0 <= s0 < 2 -> 0 <= s1 < 2 -> reg 128 a ->
  n64_permute2 A s0 s1 a = lsh 64 128 2 (p_permute2 s0 s1) [a].
Proof.
  intros H0 H1 Ha. two s0 H0; two s1 H1; unfold n64_permute2; cbv zeta; zmatch; destruct (use_neon64 A); selg 16.
Qed.
Ltac sel_ext e ::= lazymatch e with
  | n32_bcast _ _ => rewrite n32_bcast_lsh by sdiv
  | n32_shf2x2 _ _ _ _ => rewrite n32_shf2x2_lsh by sdiv
  | n32_shf_1x2 _ _ _ _ => rewrite n32_shf_1x2_lsh by sdiv
  | n64_move_hi _ _ => rewrite n64_move_hi_lsh by sdiv
  | n64_permute2 _ _ _ _ => rewrite n64_permute2_lsh by sdiv
  end.
Lemma n64_shuffle2x2_lsh A s0 s1 a b : 0 <= s0 < 4 -> 0 <= s1 < 4 -> reg 128 a -> reg 128 b ->
  n64_shuffle2x2 A s0 s1 a b = lsh 64 128 2 (p_shuffle2x2 s0 s1) [a; b].
Proof.
  intros H0 H1 Ha Hb. four s0 H0; four s1 H1; unfold n64_shuffle2x2; cbv zeta; zmatch; destruct (use_neon64 A); selg 16.
Qed.

(** ---------------- int16x8 ---------------- *)
Definition sel4 (s0 s1 s2 s3 k : Z) : bool :=
  0 <? (if k =? 0 then s0 else if k =? 1 then s1 else if k =? 2 then s2 else s3).
Definition swap_src (n1 n2 k : Z) : src :=
  fromA (match n1 * 4 + n2 with
  | 0 | 5 | 10 | 15 => k | 1 | 4 | 11 | 14 => Z.lxor k 1 | 2 | 8 | 7 | 13 => Z.lxor k 2 | _ => 3 - k end).
Section N16.
  Variable a : Z.
  Hypothesis Ha : reg 128 a.
  Lemma n16_bcast_lsh n : 0 <= n < 4 -> n16_bcast n a = lsh 16 128 4 (fun _ => fromA n) [a].
  Proof. intros Hn. four n Hn; unfold n16_bcast; selg 16. Qed.
  Lemma n16_mov_r_lsh n : 0 <= n < 4 ->
    n16_mov_r n a = lsh 16 128 4 (fun k => if k <? n then zlane else fromA (k - n)) [a].
  Proof. intros Hn. four n Hn; unfold n16_mov_r; selg 16. Qed.
  Lemma n16_mov_l_lsh n : 0 <= n < 4 ->
    n16_mov_l n a = lsh 16 128 4 (fun k => if k <? 4 - n then fromA (k + n) else zlane) [a].
  Proof. intros Hn. four n Hn; unfold n16_mov_l; selg 16. Qed.
  Lemma n16_swap1_lsh n1 n2 : 0 <= n1 < 4 -> 0 <= n2 < 4 -> n16_swap1 n1 n2 a = lsh 16 128 4 (swap_src n1 n2) [a].
  Proof. intros H1 H2. four n1 H1; four n2 H2; unfold n16_swap1; zmatch; selg 16. Qed.
  Lemma n16_sel_lsh s0 s1 s2 s3 b : reg 128 b -> 0 <= s0 < 2 -> 0 <= s1 < 2 -> 0 <= s2 < 2 -> 0 <= s3 < 2 ->
    n16_sel s0 s1 s2 s3 a b = lsh 16 128 4 (fun k => if sel4 s0 s1 s2 s3 k then fromB k else fromA k) [a; b].
  Proof.
    intros Hb H0 H1 H2 H3. unfold n16_sel, vdupq. eapply (Sel_goal _ 16); [apply Sel_vbslq; sel|]. enum.
  Qed.
End N16.

(** the lanes a term selects, and the selectors it needs *)
Fixpoint n16_pv (t : tm) : Z -> src :=
  match t with
  | TArg => fun k => fromA k
  | TBcast n t => comp (fun _ => fromA n) [n16_pv t]
  | TSel s0 s1 s2 s3 x y => comp (fun k => if sel4 s0 s1 s2 s3 k then fromB k else fromA k) [n16_pv x; n16_pv y]
  | TMovR n t => comp (fun k => if k <? n then zlane else fromA (k - n)) [n16_pv t]
  | TMovL n t => comp (fun k => if k <? 4 - n then fromA (k + n) else zlane) [n16_pv t]
  | TRev41 t => comp (fun k => fromA (3 - k)) [n16_pv t]
  | TRev42 t => comp (fun k => fromA (Z.lxor k 2)) [n16_pv t]
  | TRev21 t => comp (fun k => fromA (Z.lxor k 1)) [n16_pv t]
  | TDupLo t => comp (fun k => fromA (2 * (k / 2))) [n16_pv t]
  | TDupHi t => comp (fun k => fromA (2 * (k / 2) + 1)) [n16_pv t]
  | TDup2Lo t => comp (fun k => fromA (k mod 2)) [n16_pv t]
  | TDup2Hi t => comp (fun k => fromA (2 + k mod 2)) [n16_pv t]
  | TDupUnpackLo t => comp (fun k => fromA (k / 2)) [n16_pv t]
  | TDupUnpackHi t => comp (fun k => fromA (2 + k / 2)) [n16_pv t]
  | TSwap1 n1 n2 t => comp (swap_src n1 n2) [n16_pv t]
  end.
Definition rb (n s : Z) : bool := (0 <=? s) && (s <? n).
Fixpoint n16_ok (t : tm) : bool :=
  match t with
  | TArg => true
  | TBcast n t | TMovR n t | TMovL n t => rb 4 n && n16_ok t
  | TSel s0 s1 s2 s3 x y => rb 2 s0 && rb 2 s1 && rb 2 s2 && rb 2 s3 && n16_ok x && n16_ok y
  | TSwap1 n1 n2 t => rb 4 n1 && rb 4 n2 && n16_ok t
  | TRev41 t | TRev42 t | TRev21 t | TDupLo t | TDupHi t | TDup2Lo t | TDup2Hi t
  | TDupUnpackLo t | TDupUnpackHi t => n16_ok t
  end.
Lemma rb_spec n s : rb n s = true -> 0 <= s < n.
Proof. unfold rb. rewrite andb_true_iff, Z.leb_le, Z.ltb_lt. auto. Qed.
Lemma comp1 L M a : in_range 4 L = true ->
  lsh 16 128 4 L [lsh 16 128 4 M [a]] = lsh 16 128 4 (comp L [M]) [a].
Proof. intros. apply (lsh_comp 16 128 4 L [M] [a]); auto. Qed.
Lemma comp2 L M N a : in_range 4 L = true ->
  lsh 16 128 4 L [lsh 16 128 4 M [a]; lsh 16 128 4 N [a]] = lsh 16 128 4 (comp L [M; N]) [a].
Proof. intros. apply (lsh_comp 16 128 4 L [M; N] [a]); auto. Qed.
Lemma n16_eval_pv a t : reg 128 a -> n16_ok t = true -> n16_eval a t = lsh 16 128 4 (n16_pv t) [a].
Proof.
  intros Ha. assert (forall M, reg 128 (lsh 16 128 4 M [a])) as HR by (intros; apply lsh_reg; reflexivity).
  induction t; cbn [n16_eval n16_pv n16_ok]; rewrite ?andb_true_iff; intros H;
    repeat match goal with H : _ /\ _ |- _ => destruct H end;
    repeat match goal with H : rb _ _ = true |- _ => apply rb_spec in H end;
    repeat match goal with IH : n16_ok ?t = true -> _, H : n16_ok ?t = true |- _ => rewrite (IH H); clear IH end.
  - symmetry. apply lsh_id; auto.
  - rewrite n16_bcast_lsh by auto. apply comp1. four n H; reflexivity.
  - rewrite n16_sel_lsh by auto. apply comp2. two s0 H; two s1 H4; two s2 H3; two s3 H2; reflexivity.
  - rewrite n16_mov_r_lsh by auto. apply comp1. four n H; reflexivity.
  - rewrite n16_mov_l_lsh by auto. apply comp1. four n H; reflexivity.
  - assert (forall x, reg 128 x -> n16_rev41 x = lsh 16 128 4 (fun k => fromA (3 - k)) [x]) as E by (intros; selg 16).
    rewrite E by auto. apply comp1. reflexivity.
  - assert (forall x, reg 128 x -> n16_rev42 x = lsh 16 128 4 (fun k => fromA (Z.lxor k 2)) [x]) as E by (intros; selg 16).
    rewrite E by auto. apply comp1. reflexivity.
  - assert (forall x, reg 128 x -> n16_rev21 x = lsh 16 128 4 (fun k => fromA (Z.lxor k 1)) [x]) as E by (intros; selg 16).
    rewrite E by auto. apply comp1. reflexivity.
  - assert (forall x, reg 128 x -> n16_dup_lo x = lsh 16 128 4 (fun k => fromA (2 * (k / 2))) [x]) as E by (intros; selg 16).
    rewrite E by auto. apply comp1. reflexivity.
  - assert (forall x, reg 128 x -> n16_dup_hi x = lsh 16 128 4 (fun k => fromA (2 * (k / 2) + 1)) [x]) as E by (intros; selg 16).
    rewrite E by auto. apply comp1. reflexivity.
  - assert (forall x, reg 128 x -> n16_dup2 0 x = lsh 16 128 4 (fun k => fromA (k mod 2)) [x]) as E by (intros; selg 16).
    rewrite E by auto. apply comp1. reflexivity.
  - assert (forall x, reg 128 x -> n16_dup2 1 x = lsh 16 128 4 (fun k => fromA (2 + k mod 2)) [x]) as E by (intros; selg 16).
    rewrite E by auto. apply comp1. reflexivity.
  - assert (forall x, reg 128 x -> n16_dup_unpack false x = lsh 16 128 4 (fun k => fromA (k / 2)) [x]) as E by (intros; selg 16).
    rewrite E by auto. apply comp1. reflexivity.
  - assert (forall x, reg 128 x -> n16_dup_unpack true x = lsh 16 128 4 (fun k => fromA (2 + k / 2)) [x]) as E by (intros; selg 16).
    rewrite E by auto. apply comp1. reflexivity.
  - rewrite n16_swap1_lsh by auto. apply comp1. four n1 H; four n2 H1; reflexivity.
Qed.
Definition n16_entry_ok (s0 s1 s2 s3 : Z) : bool :=
  match nth (Z.to_nat (64 * s0 + 16 * s1 + 4 * s2 + s3)) n16_table None with
  | None => true
  | Some t => n16_ok t && forallb (fun k => src_eqb (n16_pv t k) (p_permute4 s0 s1 s2 s3 k)) (zrange 4)
  end.
Lemma n16_table_ok s0 s1 s2 s3 : 0 <= s0 < 4 -> 0 <= s1 < 4 -> 0 <= s2 < 4 -> 0 <= s3 < 4 ->
  n16_entry_ok s0 s1 s2 s3 = true.
Proof. intros. enum. Qed.
Lemma n16_permute4_lsh A s0 s1 s2 s3 a : valid_arch A = true -> avail_int A 8 R128 = true -> has_permute_bytes A = true ->
  0 <= s0 < 4 -> 0 <= s1 < 4 -> 0 <= s2 < 4 -> 0 <= s3 < 4 -> reg 128 a ->
  n16_permute4 A s0 s1 s2 s3 a = Ok (lsh 16 128 4 (p_permute4 s0 s1 s2 s3) [a]).
Proof.
  intros HV HA HB H0 H1 H2 H3 Ha. pose proof (n16_table_ok s0 s1 s2 s3 H0 H1 H2 H3) as HT.
  unfold n16_permute4, n16_entry_ok in *. destruct (nth _ n16_table None) as [t|].
  - apply andb_true_iff in HT. destruct HT as [Hok HE]. rewrite n16_eval_pv by auto. f_equal.
    apply lsh_extb; auto.
  - unfold make_shuffle_bytes16_mask. rewrite perm_mask_ok; auto; [|clear HT; enum]. f_equal. clear HT. cbn [rbits].
    eapply (Sel_goal _ 16); [|shelve]. apply Sel_lsh2; sel. Unshelve. enum.
Qed.
