(** transpose2 / transpose4 on one register per row. *)
From Verif Require Export Model.Transpose Proof.UnzipP.

(** Registers described by selections of the same environment, and swaps of their lanes. *)
Definition set_m (i : Z) (v : src) (M : Z -> src) : Z -> src := fun k => if k =? i then v else M k.
Definition swap_m (p : (nat * Z) * (nat * Z)) (st : list (Z -> src)) : list (Z -> src) :=
  let '((x, i), (y, j)) := p in
  let vx := nth x st (fun _ => None) i in
  let vy := nth y st (fun _ => None) j in
  let st1 := set_nth x (set_m i vy (nth x st (fun _ => None))) st in
  set_nth y (set_m j vx (nth y st1 (fun _ => None))) st1.
Definition sels_of (w : Z) (env : list Z) (Ms : list (Z -> src)) : list Z := map (fun M => lsh w 128 (128 / w) M env) Ms.

Section N.
  Variables (w : Z) (env : list Z).
  Hypothesis Hw : wok w 128 = true.
  Let n := 128 / w.
  Lemma whole_gok : gok w 128 n = true.
  Proof.
    destruct (wok_spec _ _ Hw) as (Hp & _ & E & _). unfold gok. rewrite Hw. fold n in E. assert (0 < n) by nia.
    rewrite !andb_true_iff, Z.ltb_lt, Z.eqb_eq. split; [auto|]. rewrite (Z.mul_comm n), <- E. reflexivity.
  Qed.
  Lemma whole_lane M k : 0 <= k < n -> lane w k (lsh w 128 n M env) =
    match M k with None => 0 | Some (m, j) => lane w j (nth m env 0) end.
  Proof.
    intros Hk. pose proof (lane_lsh w 128 n M env 0 k whole_gok Hk) as H.
    replace (n * 0 + k) with k in H by lia.
    destruct (gok_spec _ _ _ whole_gok) as (_ & Hp & _ & Hn & E & _).
    assert (0 < 128 / (n * w)) as HQ.
    { set (q := 128 / (n * w)) in *. assert (0 < n * w) by nia. nia. }
    rewrite H by lia. destruct (M k) as [[m j]|]; rewrite ?Z.mul_0_r, ?Z.add_0_l; reflexivity.
  Qed.
  Lemma nth_set_nth {X} m (v d : X) st k : (m < length st)%nat ->
    nth k (set_nth m v st) d = if (k =? m)%nat then v else nth k st d.
  Proof.
    intros H. unfold set_nth. assert (length (firstn m st) = m) as L by (apply firstn_length_le; lia).
    destruct (Nat.eqb_spec k m) as [->|Hn].
    - rewrite app_nth2 by lia. rewrite L, Nat.sub_diag. reflexivity.
    - destruct (Nat.lt_ge_cases k m).
      + rewrite app_nth1 by lia. rewrite <- (firstn_skipn m st) at 2. rewrite app_nth1 by lia. reflexivity.
      + rewrite app_nth2 by lia. rewrite L.
        rewrite <- (firstn_skipn (S m) st) at 2. rewrite app_nth2 by (rewrite firstn_length_le; lia).
        rewrite firstn_length_le by lia. replace (k - m)%nat with (S (k - S m)) by lia. reflexivity.
  Qed.
  Lemma map_set_nth {X Y} (f : X -> Y) m v st : map f (set_nth m v st) = set_nth m (f v) (map f st).
  Proof. unfold set_nth. rewrite map_app, firstn_map. cbn [map]. rewrite skipn_map. reflexivity. Qed.
  Lemma set_nth_length {X} m (v : X) st : (m < length st)%nat -> length (set_nth m v st) = length st.
  Proof. intros. unfold set_nth. rewrite app_length, firstn_length_le by lia. cbn [length]. rewrite skipn_length. lia. Qed.
  Lemma set_el_sel i x y j M N : 0 <= i < n -> 0 <= j < n ->
    x = lsh w 128 n M env -> y = lsh w 128 n N env ->
    set_el w i (lane w j y) x = lsh w 128 n (set_m i (N j) M) env.
  Proof.
    intros Hi Hj -> ->. apply (reg_lanes w 128); auto; [apply pack_reg; auto|]. intros k Hk. fold n in Hk.
    rewrite (whole_lane (set_m i (N j) M)) by auto. unfold set_el. rewrite lane_pack by auto. unfold set_m.
    rewrite wrap_if, !wrap_lane. destruct (k =? i); apply whole_lane; auto.
  Qed.
  Definition swap_fits (p : (nat * Z) * (nat * Z)) (r : nat) : bool :=
    let '((x, i), (y, j)) := p in (x <? r)%nat && (y <? r)%nat && (0 <=? i) && (i <? n) && (0 <=? j) && (j <? n).
  Lemma swap_el_sel p Ms : swap_fits p (length Ms) = true ->
    swap_el w p (sels_of w env Ms) = sels_of w env (swap_m p Ms).
  Proof.
    destruct p as [[x i] [y j]]. unfold swap_fits. rewrite !andb_true_iff, !Nat.ltb_lt, !Z.leb_le, !Z.ltb_lt.
    intros (((((Hx & Hy) & Hi) & Hi') & Hj) & Hj'). unfold swap_el, swap_m, sels_of. fold n.
    set (f := fun M => lsh w 128 n M env). set (d := fun _ : Z => @None (nat * Z)).
    assert (forall m st, (m < length st)%nat -> nth m (map f st) 0 = f (nth m st d)) as NM by (intros; apply nth_map'; auto).
    rewrite !NM by auto. 
    rewrite (set_el_sel i (f (nth x Ms d)) (f (nth y Ms d)) j (nth x Ms d) (nth y Ms d)) by (auto; lia).
    rewrite map_set_nth. f_equal.
    - change (lsh w 128 n (set_m i (nth y Ms d j) (nth x Ms d)) env) with (f (set_m i (nth y Ms d j) (nth x Ms d))).
      rewrite <- map_set_nth. rewrite NM by (rewrite set_nth_length; auto).
      apply (set_el_sel j _ _ i); auto; lia.
    - rewrite map_set_nth. reflexivity.
  Qed.
  Lemma swap_m_length p Ms : swap_fits p (length Ms) = true -> length (swap_m p Ms) = length Ms.
  Proof.
    destruct p as [[x i] [y j]]. unfold swap_fits. rewrite !andb_true_iff, !Nat.ltb_lt. intros (((((Hx & Hy) & _) & _) & _) & _).
    unfold swap_m. rewrite !set_nth_length; auto. rewrite set_nth_length; auto.
  Qed.
  Lemma swaps_sel l : forall Ms, forallb (fun p => swap_fits p (length Ms)) l = true ->
    fold_left (fun st p => swap_el w p st) l (sels_of w env Ms) = sels_of w env (fold_left (fun st p => swap_m p st) l Ms).
  Proof.
    induction l as [|p l IH]; intros Ms H; [reflexivity|]. cbn [forallb fold_left] in *.
    apply andb_true_iff in H as [H1 H2]. rewrite swap_el_sel by auto. apply IH. rewrite swap_m_length by auto. auto.
  Qed.
End N.
Lemma fold_flat {X Y T} (f : T -> Y -> T) (g : X -> list Y) l : forall st,
  fold_left (fun st x => fold_left f (g x) st) l st = fold_left f (flat_map g l) st.
Proof. induction l as [|x l IH]; intros st; [reflexivity|]. cbn [fold_left flat_map]. rewrite fold_left_app. apply IH. Qed.
Lemma env_sels w env : wok w 128 = true -> Forall (reg 128) env ->
  env = sels_of w env (map (fun m k => Some (m, k)) (seq 0 (length env))).
Proof.
  intros Hw H. unfold sels_of. rewrite map_map.
  apply (nth_ext _ _ 0 0); [rewrite map_length, seq_length; reflexivity|]. intros m Hm.
  rewrite (nth_map' _ _ _ 0%nat) by (rewrite seq_length; auto). rewrite seq_nth by auto. cbn [Nat.add].
  symmetry. apply lsh_id; auto. 2:{ rewrite Forall_forall in H. apply H, nth_In. auto. } apply whole_gok; auto.
Qed.

Definition mnth (m : nat) (Ms : list (Z -> src)) : Z -> src := nth m Ms (fun _ => None).
Lemma nth_sels w env m Ms : (m < length Ms)%nat -> nth m (sels_of w env Ms) 0 = lsh w 128 (128 / w) (mnth m Ms) env.
Proof. intros. unfold sels_of, mnth. apply (nth_map' (fun M => lsh w 128 (128 / w) M env)); auto. Qed.

Definition wlist (w : Z) : Prop := w = 8 \/ w = 16 \/ w = 32 \/ w = 64.
Lemma whole_check w n L M env : wok w 128 = true ->
  (0 <? n) && (128 / w mod n =? 0) && in_range n L &&
  forallb (fun k => src_eqb (M k) (match L (k mod n) with None => None | Some (m, j) => Some (m, n * (k / n) + j) end)) (zrange (128 / w)) = true ->
  lsh w 128 (128 / w) M env = lsh w 128 n L env.
Proof.
  intros Hw. rewrite !andb_true_iff, Z.ltb_lt, Z.eqb_eq. intros (((Hn & Hm) & HI) & HF).
  pose proof (whole_gok w Hw) as HG.
  destruct (wok_spec _ _ Hw) as (Hp & _ & E & _). set (N := 128 / w) in *.
  assert (N = n * (N / n)) as EN by (rewrite (Z.div_mod N n) at 1; lia).
  assert (0 < N) by nia. assert (0 < N / n) by nia.
  assert (gok w 128 n = true) as HG2.
  { unfold gok. rewrite Hw. rewrite !andb_true_iff, Z.ltb_lt, Z.eqb_eq. split; [auto|].
    rewrite E, EN. replace (w * (n * (N / n))) with ((N / n) * (n * w)) by ring. apply Z.mod_mul. nia. }
  rewrite (lsh_regroup w 128 n (N / n)); auto; rewrite <- ?EN; auto.
  apply lsh_extb; auto.
Qed.
Lemma null_transpose2_ok w a0 a1 : wlist w -> reg 128 a0 -> reg 128 a1 ->
  null_transpose2 w a0 a1 = (lsh w 128 2 (p_transpose 0) [a0; a1], lsh w 128 2 (p_transpose 1) [a0; a1]).
Proof.
  intros Hw H0 H1. assert (wok w 128 = true) as Hk by (destruct Hw as [-> | [-> | [-> | ->]]]; reflexivity).
  unfold null_transpose2. cbv zeta.
  pose proof (fold_flat (fun st p => swap_el w p st) (fun g => [((0%nat, 2 * g + 1), (1%nat, 2 * g))]) (zrange (128 / w / 2)) [a0; a1]) as EF.
  cbn [fold_left] in EF. rewrite EF. clear EF.
  rewrite (env_sels w [a0; a1]) at 1 2 by (auto; repeat constructor; auto).
  rewrite !swaps_sel.
  2,3: try assumption; destruct Hw as [-> | [-> | [-> | ->]]]; vm_compute; reflexivity.
  rewrite !nth_sels.
  2,3: destruct Hw as [-> | [-> | [-> | ->]]]; vm_compute; lia.
  f_equal; apply whole_check; auto; destruct Hw as [-> | [-> | [-> | ->]]]; vm_compute; reflexivity.
Qed.
Lemma null_transpose4_ok w a0 a1 a2 a3 : w = 8 \/ w = 16 \/ w = 32 -> reg 128 a0 -> reg 128 a1 -> reg 128 a2 -> reg 128 a3 ->
  null_transpose4 w a0 a1 a2 a3 =
  (lsh w 128 4 (p_transpose 0) [a0; a1; a2; a3], lsh w 128 4 (p_transpose 1) [a0; a1; a2; a3],
   lsh w 128 4 (p_transpose 2) [a0; a1; a2; a3], lsh w 128 4 (p_transpose 3) [a0; a1; a2; a3]).
Proof.
  intros Hw H0 H1 H2 H3. assert (wok w 128 = true) as Hk by (destruct Hw as [-> | [-> | ->]]; reflexivity).
  unfold null_transpose4. cbv zeta.
  rewrite (fold_flat (fun st p => swap_el w p st) (fun g => swaps4 (4 * g))).
  rewrite (env_sels w [a0; a1; a2; a3]) at 1 2 3 4 by (auto; repeat constructor; auto).
  rewrite !swaps_sel by (try assumption; destruct Hw as [-> | [-> | ->]]; vm_compute; reflexivity).
  rewrite !nth_sels by (destruct Hw as [-> | [-> | ->]]; vm_compute; lia).
  do 3 (f_equal; [|apply whole_check; auto; destruct Hw as [-> | [-> | ->]]; vm_compute; reflexivity]).
  apply whole_check; auto; destruct Hw as [-> | [-> | ->]]; vm_compute; reflexivity.
Qed.

Ltac pair_eq := repeat match goal with |- (_, _) = (_, _) => apply f_equal2 end.
Lemma zips_ok A e s a b : valid_arch A = true -> avail_et A e s = true -> reg (rbits s) a -> reg (rbits s) b ->
  zips A e s a b = Ok (lsh (eb e) (rbits s) (en e) (p_zip_lo (en e)) [a; b], lsh (eb e) (rbits s) (en e) (p_zip_hi (en e)) [a; b]).
Proof.
  intros HV HA Ha Hb. unfold zips. rewrite !i_zip_ok by auto. cbn [bind]. reflexivity.
Qed.
Lemma avail_i64 A s : valid_arch A = true -> avail_et A I32 s = true -> avail_et A I64 s = true.
Proof. intros HV HA. apply (avail_wide A 32 64); auto. Qed.
Lemma avail_i32 A s : valid_arch A = true -> avail_et A I16 s = true -> avail_et A I32 s = true.
Proof. intros HV HA. apply (avail_wide A 16 32); auto. Qed.
Lemma avail_i16 A s : valid_arch A = true -> avail_et A I8 s = true -> avail_et A I16 s = true.
Proof. intros HV HA. destruct s; cbn in *; auto. Qed.
Lemma zip2_transpose2_ok A e e2 s a0 a1 : valid_arch A = true -> avail_et A e s = true -> avail_et A e2 s = true ->
  (e, e2) = (I32, I64) \/ (e, e2) = (F32, F64) -> reg (rbits s) a0 -> reg (rbits s) a1 ->
  zip2_transpose2 A e e2 s a0 a1 = Ok (lsh 32 (rbits s) 2 (p_transpose 0) [a0; a1], lsh 32 (rbits s) 2 (p_transpose 1) [a0; a1]).
Proof.
  intros HV HA HA2 HE Ha Hb. unfold zip2_transpose2. rewrite zips_ok by auto. cbn [bind fst snd].
  rewrite zips_ok by (auto; apply lsh_reg; destruct e, s; reflexivity).
  apply f_equal. destruct HE as [HE | HE]; inversion HE; subst; cbn [eb]; fix_n; pair_eq; destruct s; cbn [rbits] in *; selg 16.
Qed.
Lemma sse_transpose2_16_ok A s a0 a1 : valid_arch A = true -> avail_et A I16 s = true -> reg (rbits s) a0 -> reg (rbits s) a1 ->
  sse_transpose2_16 A s a0 a1 = Ok (lsh 16 (rbits s) 2 (p_transpose 0) [a0; a1], lsh 16 (rbits s) 2 (p_transpose 1) [a0; a1]).
Proof.
  intros HV HA Ha Hb. unfold sse_transpose2_16. rewrite zips_ok by auto. cbn [bind fst snd].
  rewrite !i_shuffle2_ok by (first [lia | solve [auto using avail_i32] | apply lsh_reg; destruct s; reflexivity]). cbn [bind].
  apply f_equal. cbn [eb]; fix_n; pair_eq; destruct s; cbn [rbits] in *; selg 16.
Qed.
Lemma shuf_transpose2_ok A k m0 m1 a0 a1 L0 L1 : valid_arch A = true -> use_sse2 A = false -> reg 128 a0 -> reg 128 a1 ->
  mask_ok 32 (shuffle_mask_bytes k m0) = true -> mask_ok 32 (shuffle_mask_bytes k m1) = true ->
  lsh 8 128 16 (mask_sel (shuffle_mask_bytes k m0)) [a0; a1] = L0 ->
  lsh 8 128 16 (mask_sel (shuffle_mask_bytes k m1)) [a0; a1] = L1 ->
  shuf_transpose2 A k m0 m1 a0 a1 = Ok (L0, L1).
Proof.
  intros HV HB Ha Hb H0 H1 <- <-. unfold shuf_transpose2, shuffle_mask, make_shuffle_bytes16_mask.
  rewrite !shuf_mask_ok by (auto using has_sb_sse2). reflexivity.
Qed.
Ltac tr2 := idtac; lazymatch goal with
  | |- Ok (null_transpose2 _ _ _) = _ => rewrite null_transpose2_ok by (unfold wlist; auto); reflexivity
  | |- Ok (vtrn2 _ _ _) = _ => apply f_equal; unfold vtrn2; pair_eq; selg 16
  | |- Ok (vcombine _ _, _) = _ => apply f_equal; pair_eq; selg 16
  | |- shuf_transpose2 _ _ _ _ _ _ = _ => apply shuf_transpose2_ok; try assumption; lazymatch goal with |- mask_ok _ _ = true => vm_compute; reflexivity | |- _ => selg 16 end
  | |- zip2_transpose2 _ _ _ _ _ _ = _ => apply zip2_transpose2_ok; auto using avail_i64
  | |- sse_transpose2_16 _ _ _ _ = _ => apply sse_transpose2_16_ok; auto
  | |- zips _ _ _ _ _ = _ => rewrite zips_ok by auto; cbn [eb rbits]; fix_n; apply f_equal; pair_eq; selg 16
  end.
Lemma i_transpose2_ok A e s a0 a1 : valid_arch A = true -> avail_et A e s = true -> e <> I8 ->
  reg (rbits s) a0 -> reg (rbits s) a1 ->
  i_transpose2 A e s a0 a1 = Ok (lsh (eb e) (rbits s) 2 (p_transpose 0) [a0; a1], lsh (eb e) (rbits s) 2 (p_transpose 1) [a0; a1]).
Proof.
  intros HV HA He Ha Hb. destruct e; [exfalso; auto|..]; unfold i_transpose2, use_neon_no_flt_sp, use_neon64; destruct s; cbn [rbits eb] in *;
  cbn [avail_et] in HA.
  all: lad HV HA tr2.
Qed.
Lemma i_transpose2_8_ok A a0 a1 : valid_arch A = true -> use_sse2 A = false ->
  reg 128 a0 -> reg 128 a1 ->
  i_transpose2 A I8 R128 a0 a1 = Ok (lsh 8 128 2 (p_transpose 0) [a0; a1], lsh 8 128 2 (p_transpose 1) [a0; a1]).
Proof.
  intros HV HS Ha Hb. unfold i_transpose2.
  assert (use_null A = true \/ use_neon A = true \/ use_altivec A = true \/ use_msa A = true) as HC.
  { destruct (use_null A) eqn:E1; auto. destruct (use_neon A) eqn:E2; auto. destruct (use_altivec A) eqn:E3; auto. destruct (use_msa A) eqn:E4; auto.
    exfalso. vimp HV. }
  destruct (use_null A) eqn:E1; [tr2|]. destruct (use_neon A) eqn:E2; [tr2|].
  destruct (use_altivec A || use_msa A) eqn:E3; [tr2|].
  exfalso. apply orb_false_iff in E3 as [E3 E4]. rewrite E3, E4 in HC. destruct HC as [X|[X|[X|X]]]; discriminate X.
Qed.
Definition ok4 (w R a0 a1 a2 a3 : Z) : Z * Z * Z * Z :=
  (lsh w R 4 (p_transpose 0) [a0; a1; a2; a3], lsh w R 4 (p_transpose 1) [a0; a1; a2; a3],
   lsh w R 4 (p_transpose 2) [a0; a1; a2; a3], lsh w R 4 (p_transpose 3) [a0; a1; a2; a3]).
Ltac lreg := first [assumption | apply lsh_reg; match goal with |- wok _ ?R = true => idtac end; reflexivity].
Lemma sse_transpose32x4_ok A e e2 s a0 a1 a2 a3 : valid_arch A = true -> avail_et A e s = true -> avail_et A e2 s = true ->
  (e, e2) = (I32, I64) \/ (e, e2) = (F32, F64) -> reg (rbits s) a0 -> reg (rbits s) a1 -> reg (rbits s) a2 -> reg (rbits s) a3 ->
  sse_transpose32x4 A e e2 s a0 a1 a2 a3 = Ok (ok4 32 (rbits s) a0 a1 a2 a3).
Proof.
  intros HV HA HA2 HE H0 H1 H2 H3. unfold sse_transpose32x4.
  assert (forall L x y, reg (rbits s) (lsh (eb e) (rbits s) (en e) L [x; y])) as HR by (intros; apply lsh_reg; destruct e, s; reflexivity).
  repeat (rewrite zips_ok by auto; cbn [bind fst snd]).
  apply f_equal. unfold ok4. destruct HE as [HE | HE]; inversion HE; subst; cbn [eb]; fix_n; pair_eq; destruct s; cbn [rbits] in *; selg 16.
Qed.
Lemma sse_transpose16x4_ok A s a0 a1 a2 a3 : valid_arch A = true -> avail_et A I16 s = true ->
  reg (rbits s) a0 -> reg (rbits s) a1 -> reg (rbits s) a2 -> reg (rbits s) a3 ->
  sse_transpose16x4 A s a0 a1 a2 a3 = Ok (ok4 16 (rbits s) a0 a1 a2 a3).
Proof.
  intros HV HA H0 H1 H2 H3. unfold sse_transpose16x4.
  assert (forall e L x y, reg (rbits s) (lsh (eb e) (rbits s) (en e) L [x; y])) as HR by (intros; apply lsh_reg; destruct e, s; reflexivity).
  repeat (rewrite zips_ok by auto using avail_i32, avail_i64; cbn [bind fst snd]).
  apply f_equal. unfold ok4. cbn [eb]; fix_n; pair_eq; destruct s; cbn [rbits] in *; selg 16.
Qed.
Lemma ok4_reg w s a0 a1 a2 a3 i : wok w (rbits s) = true -> reg (rbits s) (lsh w (rbits s) 4 (p_transpose i) [a0; a1; a2; a3]).
Proof. intros. apply lsh_reg; auto. Qed.
Lemma i_transpose4_32_ok A s a0 a1 a2 a3 : valid_arch A = true -> avail_et A I32 s = true ->
  reg (rbits s) a0 -> reg (rbits s) a1 -> reg (rbits s) a2 -> reg (rbits s) a3 ->
  i_transpose4_32 A s a0 a1 a2 a3 = Ok (ok4 32 (rbits s) a0 a1 a2 a3).
Proof.
  intros HV HA H0 H1 H2 H3.
  assert (sse_transpose32x4 A I32 I64 s a0 a1 a2 a3 = Ok (ok4 32 (rbits s) a0 a1 a2 a3)) as E1
    by (apply sse_transpose32x4_ok; auto using avail_i64).
  assert (two_transpose2 A I32 I64 s a0 a1 a2 a3 = Ok (ok4 32 (rbits s) a0 a1 a2 a3)) as E2.
  { assert (forall e L x y, reg (rbits s) (lsh (eb e) (rbits s) 2 L [x; y])) as HR by (intros; apply lsh_reg; destruct e, s; reflexivity).
    unfold two_transpose2.
    rewrite (i_transpose2_ok A I32 s a0 a1), (i_transpose2_ok A I32 s a2 a3) by (first [discriminate|assumption]). cbn [bind fst snd].
    rewrite !(i_transpose2_ok A I64) by (first [discriminate|solve [auto using avail_i64]]). cbn [bind fst snd].
    apply f_equal. unfold ok4. cbn [eb]; fix_n; pair_eq; destruct s; cbn [rbits] in *; selg 16. }
  assert (s = R128 -> null_transpose4 32 a0 a1 a2 a3 = ok4 32 (rbits s) a0 a1 a2 a3) as E3.
  { intros ->. unfold ok4. apply null_transpose4_ok; auto. }
  unfold i_transpose4_32. rewrite E1, E2. destruct s; [rewrite E3 by reflexivity|..]; clear E1 E2 E3; cbn [avail_et eb] in HA.
  all: lad HV HA ltac:(reflexivity).
Qed.
Lemma sse_transpose8x4_ok A s a0 a1 a2 a3 : valid_arch A = true -> avail_et A I8 s = true ->
  reg (rbits s) a0 -> reg (rbits s) a1 -> reg (rbits s) a2 -> reg (rbits s) a3 ->
  sse_transpose8x4 A s a0 a1 a2 a3 = Ok (ok4 8 (rbits s) a0 a1 a2 a3).
Proof.
  intros HV HA H0 H1 H2 H3. unfold sse_transpose8x4.
  assert (forall e L x y, reg (rbits s) (lsh (eb e) (rbits s) (en e) L [x; y])) as HR by (intros; apply lsh_reg; destruct e, s; reflexivity).
  repeat (rewrite zips_ok by auto using avail_i16, avail_i32; cbn [bind fst snd]).
  rewrite i_transpose4_32_ok by auto using avail_i16, avail_i32.
  apply f_equal. unfold ok4. cbn [eb]; fix_n; pair_eq; destruct s; cbn [rbits] in *; selg 16.
Qed.

Lemma i_transpose4_ok A e s a0 a1 a2 a3 : valid_arch A = true -> avail_et A e s = true -> eb e < 64 ->
  reg (rbits s) a0 -> reg (rbits s) a1 -> reg (rbits s) a2 -> reg (rbits s) a3 ->
  i_transpose4 A e s a0 a1 a2 a3 = Ok (ok4 (eb e) (rbits s) a0 a1 a2 a3).
Proof.
  intros HV HA He H0 H1 H2 H3.
  assert (avail_et A I8 s = true -> sse_transpose8x4 A s a0 a1 a2 a3 = Ok (ok4 8 (rbits s) a0 a1 a2 a3)) as X8
    by (intros; apply sse_transpose8x4_ok; auto).
  assert (avail_et A I16 s = true -> sse_transpose16x4 A s a0 a1 a2 a3 = Ok (ok4 16 (rbits s) a0 a1 a2 a3)) as X16
    by (intros; apply sse_transpose16x4_ok; auto).
  assert (avail_et A F32 s = true -> sse_transpose32x4 A F32 F64 s a0 a1 a2 a3 = Ok (ok4 32 (rbits s) a0 a1 a2 a3)) as XF
    by (intros; apply sse_transpose32x4_ok; auto).
  assert (avail_et A I32 s = true -> i_transpose4_32 A s a0 a1 a2 a3 = Ok (ok4 32 (rbits s) a0 a1 a2 a3)) as X32
    by (intros; apply i_transpose4_32_ok; auto).
  assert (s = R128 -> use_sse2 A = false -> two_transpose2 A I8 I16 s a0 a1 a2 a3 = Ok (ok4 8 (rbits s) a0 a1 a2 a3)) as T8.
  { intros -> HS. unfold two_transpose2. cbn [rbits] in *.
    rewrite (i_transpose2_8_ok A a0 a1), (i_transpose2_8_ok A a2 a3) by assumption. cbn [bind fst snd].
    rewrite !(i_transpose2_ok A I16 R128) by (first [discriminate|reflexivity|assumption|apply lsh_reg; reflexivity]). cbn [bind fst snd].
    apply f_equal. unfold ok4. cbn [eb rbits]; fix_n; pair_eq; cbn [rbits] in *; selg 16. }
  assert (avail_et A I16 s = true -> two_transpose2 A I16 I32 s a0 a1 a2 a3 = Ok (ok4 16 (rbits s) a0 a1 a2 a3)) as T16.
  { intros HA16. assert (forall e L x y, reg (rbits s) (lsh (eb e) (rbits s) 2 L [x; y])) as HR by (intros; apply lsh_reg; destruct e0, s; reflexivity).
    unfold two_transpose2.
    rewrite (i_transpose2_ok A I16 s a0 a1), (i_transpose2_ok A I16 s a2 a3) by (first [discriminate|assumption]). cbn [bind fst snd].
    rewrite !(i_transpose2_ok A I32) by (first [discriminate|solve [auto using avail_i32]]). cbn [bind fst snd].
    apply f_equal. unfold ok4. cbn [eb]; fix_n; pair_eq; destruct s; cbn [rbits] in *; selg 16. }
  assert (s = R128 -> eb e < 64 -> null_transpose4 (eb e) a0 a1 a2 a3 = ok4 (eb e) (rbits s) a0 a1 a2 a3) as N4.
  { intros -> He'. apply null_transpose4_ok; auto. destruct e; cbn in *; auto; discriminate. }
  unfold i_transpose4. destruct e; cbn [avail_et eb] in *; try discriminate He; clear He.
  - rewrite X8 by exact HA. clear X8 X16 XF X32 T16.
    destruct s; [|lad HV HA ltac:(reflexivity)..]. rewrite N4 by (reflexivity || discriminate). clear N4.
    destruct (use_sse2 A) eqn:ES; [clear T8; lad HV HA ltac:(reflexivity)|].
    rewrite T8 by reflexivity. clear T8. lad HV HA ltac:(reflexivity).
  - rewrite X16, T16 by exact HA. clear X8 X16 XF X32 T16 T8.
    destruct s; [|lad HV HA ltac:(reflexivity)..]. rewrite N4 by (reflexivity || discriminate). clear N4.
    lad HV HA ltac:(reflexivity).
  - apply X32. exact HA.
  - rewrite XF by exact HA. clear X8 X16 XF T16 T8 N4.
    destruct s; [rewrite X32 by reflexivity; destruct (use_sse2 A); reflexivity|..]; clear X32; lad HV HA ltac:(reflexivity).
Qed.
