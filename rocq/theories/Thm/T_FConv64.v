(** C54: conversions to and from float64. *)
From Verif Require Import Proof.FloatsP3 Proof.FloatRoundP Proof.FArithP Proof.CastP Proof.FConvP Proof.FConvP2 Proof.FConvP3 Proof.ConvertP Proof.FConv64P Proof.FConv64P5 Model.FConv Model.FConv64 Thm.T_Convert.
From Coq Require Import Lia.

Lemma vsize_div A T : vsize T -> (rbits (vregf A T) | T) /\ 0 < T.
Proof.
  intros [k ->]. assert (0 < 2 ^ Z.of_nat k) by (apply Z.pow_pos_nonneg; lia). split; [|lia].
  unfold vregf, fast_flt. destruct (use_avx512f A) eqn:E5; [|destruct (use_avx A)]; destruct (Z.leb_spec (128 * 2 ^ Z.of_nat k) 128); try (exists (2 ^ Z.of_nat k); cbn [rbits]; lia).
  - assert (exists j, k = S j) as [j ->] by (destruct k; [exfalso; change (2 ^ Z.of_nat 0) with 1 in *; lia|eexists; reflexivity]).
    rewrite Nat2Z.inj_succ, Z.pow_succ_r in * by lia. destruct (Z.leb_spec (128 * (2 * 2 ^ Z.of_nat j)) 256); [exists (2 ^ Z.of_nat j); cbn [rbits]; lia|].
    assert (exists i, j = S i) as [i ->] by (destruct j; [exfalso; change (2 ^ Z.of_nat 0) with 1 in *; lia|eexists; reflexivity]).
    rewrite Nat2Z.inj_succ, Z.pow_succ_r in * by lia. exists (2 ^ Z.of_nat i). cbn [rbits]. lia.
  - assert (exists j, k = S j) as [j ->] by (destruct k; [exfalso; change (2 ^ Z.of_nat 0) with 1 in *; lia|eexists; reflexivity]).
    rewrite Nat2Z.inj_succ, Z.pow_succ_r in * by lia. exists (2 ^ Z.of_nat j). cbn [rbits]. lia.
Qed.
(** ------------------- to float64 ------------------- *)
(** float32: the same number, in every lane on every architecture *)
Theorem to_float64_float_spec : forall A T, valid_arch A = true -> vsize T ->
  conv_rel 32 64 T (2 * T) (vregf A T) (vregf A (2 * T)) (to_float64_f A T) all_lanes widened.
Proof.
  intros A T HV HT. destruct (fi_regs A T HV HT) as [HA _]. rewrite (dreg_flt A HV T HT). apply (lift_up_map (vregf A T) (dreg A (vregf A T)) f_widen).
  - intros a Ha. apply i_to_float64_f_ok; auto.
  - intros x _. apply f_widen_ok.
Qed.
(** 32-bit integers: exactly *)
Definition exact64 (n : Z -> Z) (x r : Z) : Prop := f_finite 64 r = true /\ f_val 64 r = n x * 2 ^ fulp 64.
Lemma exact64_of n x : Z.abs (n x) <= 2 ^ 53 -> exact64 n x (f_of_int 64 (n x)).
Proof. intros H. apply of_int64_exact. exact H. Qed.
Theorem to_float64_int_spec : forall A T, valid_arch A = true -> vsize T ->
  conv_rel 32 64 T (2 * T) (vreg A 32 T) (vregf A (2 * T)) (to_float64_i A T) all_lanes (exact64 (sgn 32)).
Proof.
  intros A T HV HT. pose proof (vreg_avail A 32 T HV) as HA. rewrite (dreg_int A HV T HT). apply (lift_up_map (vreg A 32 T) (dreg A (vreg A 32 T)) (cvi true)).
  - intros a Ha. apply i_to_float64_i_ok; auto.
  - intros x Hx. apply (exact64_of (sgn 32)). pose proof (sgn_range 32 x ltac:(lia)) as HR. change (2 ^ (32 - 1)) with 2147483648 in HR. change (2 ^ 53) with 9007199254740992. lia.
Qed.
Theorem to_float64_uint_spec : forall A T, valid_arch A = true -> vsize T ->
  conv_rel 32 64 T (2 * T) (vreg A 32 T) (vregf A (2 * T)) (to_float64_u A T) all_lanes (exact64 (fun x => x)).
Proof.
  intros A T HV HT. pose proof (vreg_avail A 32 T HV) as HA. rewrite (dreg_int A HV T HT). apply (lift_up_map (vreg A 32 T) (dreg A (vreg A 32 T)) (cvi false)).
  - intros a Ha. apply i_to_float64_u_ok; auto.
  - intros x Hx. apply (exact64_of (fun x => x)). change (2 ^ 32) with 4294967296 in Hx. change (2 ^ 53) with 9007199254740992. lia.
Qed.
(** 8- and 16-bit integers: exactly *)
Theorem to_float64_small_spec : forall A sg w T va, valid_arch A = true -> vsize T -> w = 8 \/ w = 16 -> typed A w T va ->
  exists vr, to_float64_small A sg w T va = Ok vr /\ wfv (vregf A (T * 64 / w)) vr /\
    Z.of_nat (length vr) * rbits (vregf A (T * 64 / w)) = T * 64 / w /\
    Forall2 (exact64 (fun x => if sg then sgn w x else x)) (tlanes A w T va) (lanes 64 (vregf A (T * 64 / w)) vr).
Proof.
  intros A sg w T va HV HT Hw Ht.
  destruct (to_int_widen_spec_partial A sg w 32 T HV HT) with (va := va) as (v & Ev & [Wv Lv] & El); auto; try (destruct Hw; lia).
  unfold to_float64_small. rewrite Ev. cbn [bind].
  assert (HT' : vsize (T * 32 / w) /\ T * 64 / w = 2 * (T * 32 / w)).
  { destruct HT as [k ->]. destruct Hw as [-> | ->].
    - assert (E1 : 128 * 2 ^ Z.of_nat k * 32 / 8 = 128 * 2 ^ Z.of_nat k * 4) by (replace (128 * 2 ^ Z.of_nat k * 32) with (128 * 2 ^ Z.of_nat k * 4 * 8) by ring; apply Z.div_mul; lia).
      assert (E2 : 128 * 2 ^ Z.of_nat k * 64 / 8 = 128 * 2 ^ Z.of_nat k * 8) by (replace (128 * 2 ^ Z.of_nat k * 64) with (128 * 2 ^ Z.of_nat k * 8 * 8) by ring; apply Z.div_mul; lia).
      rewrite E1, E2. split; [|ring]. exists (S (S k)). rewrite !Nat2Z.inj_succ, !Z.pow_succ_r by lia. ring.
    - assert (E1 : 128 * 2 ^ Z.of_nat k * 32 / 16 = 128 * 2 ^ Z.of_nat k * 2) by (replace (128 * 2 ^ Z.of_nat k * 32) with (128 * 2 ^ Z.of_nat k * 2 * 16) by ring; apply Z.div_mul; lia).
      assert (E2 : 128 * 2 ^ Z.of_nat k * 64 / 16 = 128 * 2 ^ Z.of_nat k * 4) by (replace (128 * 2 ^ Z.of_nat k * 64) with (128 * 2 ^ Z.of_nat k * 4 * 16) by ring; apply Z.div_mul; lia).
      rewrite E1, E2. split; [|ring]. exists (S k). rewrite !Nat2Z.inj_succ, !Z.pow_succ_r by lia. ring. }
  destruct HT' as [HT' ->].
  assert (HR : Forall (fun x => 0 <= x < 2 ^ w) (tlanes A w T va)).
  { apply Forall_forall. intros x Hx. unfold tlanes, lanes in Hx. apply in_flat_map in Hx as (a & _ & Hx). apply in_elems in Hx; [auto|lia]. }
  assert (HX : forall x, 0 <= x < 2 ^ w -> (if sg then sgn 32 (s_extend sg w 32 x) else s_extend sg w 32 x) = (if sg then sgn w x else x)).
  { intros x Hx. unfold s_extend. destruct sg; [|reflexivity]. change (?a mod 2 ^ 32) with (wrap 32 a). rewrite sgn_wrap. apply sgn_id; [lia|].
    pose proof (sgn_range w x ltac:(lia)) as HQ. destruct Hw as [-> | ->]; [change (2 ^ (8 - 1)) with 128 in HQ|change (2 ^ (16 - 1)) with 32768 in HQ]; change (2 ^ (32 - 1)) with 2147483648; lia. }
  assert (HF : forall (P Q : Z -> Z -> Prop) (l r : list Z), Forall (fun x => 0 <= x < 2 ^ w) l -> (forall x y, 0 <= x < 2 ^ w -> P (s_extend sg w 32 x) y -> Q x y) ->
     Forall2 P (map (s_extend sg w 32) l) r -> Forall2 Q l r).
  { intros P Q l. induction l as [|x l IH]; intros r Hl HPQ H; inversion H; subst; constructor; inversion Hl; subst; auto. }
  unfold tlanes in El. fold (tlanes A w T va) in El.
  destruct sg.
  - destruct (to_float64_int_spec A (T * 32 / w) HV HT' v Wv Lv) as (vr & Er & Wr & Lr & HP); [apply forallb_forall; reflexivity|].
    exists vr. split; auto. split; auto. split; auto. rewrite El in HP. eapply HF; [exact HR| |exact HP]. intros x y Hx [H1 H2]. split; auto. rewrite H2, (HX x Hx). reflexivity.
  - destruct (to_float64_uint_spec A (T * 32 / w) HV HT' v Wv Lv) as (vr & Er & Wr & Lr & HP); [apply forallb_forall; reflexivity|].
    exists vr. split; auto. split; auto. split; auto. rewrite El in HP. eapply HF; [exact HR| |exact HP]. intros x y Hx [H1 H2]. split; [exact H1|exact H2].
Qed.
(** 64-bit integers: the nearest number, where implemented *)
Definition nearest_int64 (n : Z -> Z) (x r : Z) : Prop :=
  f_neg 64 r = (n x <? 0) /\ nearest_mag 64 (Z.abs (n x) * 2 ^ fulp 64) 1 (f_mag 64 r).
Definition has_all_i64 (A : arch) (T : Z) : bool :=
  use_null A || use_neon64 A || use_vsx207 A || use_msa A || (use_avx512dq A && (use_avx512vl A || (512 <=? T))).
Lemma to_f64_i64_rel A sg T : valid_arch A = true -> vsize T -> has_all_i64 A T = true ->
  conv_rel 64 64 T T (vreg A 64 T) (vregf A T) (to_float64_64 A sg T) all_lanes (is (fun x => f_of_int 64 (if sg then sgn 64 x else x))).
Proof.
  intros HV HT HI. pose proof (vreg_avail A 64 T HV) as HA.
  assert (HH : has_i64_to_f64 A = true).
  { unfold has_i64_to_f64. unfold has_all_i64 in HI. destruct (use_null A), (use_neon64 A), (use_vsx207 A), (use_msa A), (use_avx512dq A); auto. }
  assert (Hs : vregf A T = vreg A 64 T /\ i64_impl A (vreg A 64 T) = true).
  { unfold has_all_i64, use_neon64 in HI. unfold vregf, vreg, fast_flt, fast_int, i64_impl. change (64 <=? 16) with false. cbn iota.
    assert (HQ : use_avx512f A = true -> use_avx A = true /\ use_sse2 A = true) by (intros H; pose proof (avx512_avx A HV H) as E; split; [exact E|apply avx_sse; auto]).
    assert (HD : use_avx512dq A = true -> use_avx512f A = true).
    { intros HE. destruct (use_avx512f A) eqn:E; [reflexivity|]. exfalso. vimp HV. }
    destruct (use_avx512f A) eqn:E5.
    - destruct (HQ eq_refl) as [EX ES]. rewrite ES. assert (use_avx2 A = true) as E2 by (destruct (use_avx2 A) eqn:E2; [reflexivity|exfalso; vimp HV]).
      rewrite ?E2. assert (EB : (if use_avx512bw A then R512 else R512) = R512) by (destruct (use_avx512bw A); reflexivity). rewrite EB.
      split; [destruct (T <=? 128), (T <=? 256); reflexivity|]. cbn [negb orb].
      assert (HC : use_null A = false /\ use_neon A = false /\ use_vsx207 A = false /\ use_msa A = false).
      { clear HI HD HQ. revert ES. fam HV; rw_flags; intros; first [solve [auto] | fcontra]. }
      destruct HC as (F1 & F2 & F3 & F4). unfold use_neon64 in *. revert HI. rewrite F1, F2, F3, F4. cbn [orb andb]. destruct (use_avx512dq A); [|discriminate]. cbn [andb].
      destruct (use_avx512vl A); [reflexivity|]. cbn [orb]. intros HI. apply Z.leb_le in HI. destruct (Z.leb_spec T 128); [lia|]. destruct (Z.leb_spec T 256); [lia|]. reflexivity.
    - assert (use_avx512dq A = false) as ED by (destruct (use_avx512dq A); [discriminate (HD eq_refl)|reflexivity]). revert HI. rewrite ED. cbn [andb orb]. rewrite orb_false_r. clear HQ HD HA HH.
      fam HV; rw_flags; cbn [orb andb negb]; intros HI; try discriminate HI; destruct (use_avx A) eqn:EA, (use_avx2 A) eqn:E2; try (vimp HV); try fcontra; split; reflexivity. }
  destruct Hs as [-> Hi]. unfold to_float64_64. rewrite HH. apply lift_conv1; [apply w64|]. intros a Ha _.
  rewrite (i_to_float64_64_ok A HV sg (vreg A 64 T) a HA Hi). eexists. split; [reflexivity|]. split; [apply v1_reg, w64|].
  intros i Hi'. unfold cvt64_pd. rewrite lane_v1 by (auto using w64). rewrite wrap_small by apply of_int64_ran. reflexivity.
Qed.
Theorem to_float64_int64_partial : forall A sg T, valid_arch A = true -> vsize T -> has_all_i64 A T = true ->
  conv_rel 64 64 T T (vreg A 64 T) (vregf A T) (to_float64_64 A sg T) all_lanes (nearest_int64 (fun x => if sg then sgn 64 x else x)).
Proof.
  intros A sg T HV HT HI va Wa La Hd. destruct (to_f64_i64_rel A sg T HV HT HI va Wa La Hd) as (vr & Ev & Wr & Lr & HF).
  exists vr. split; auto. split; auto. split; auto. clear - HF. induction HF as [|x y l r Hxy HF IH]; constructor; auto. rewrite Hxy.
  destruct (of_int_nearest true (if sg then sgn 64 x else x)) as [H1 H2]. change (fw true) with 64 in *. split; [exact H2|exact H1].
Qed.
(** with AVX512DQ but not AVX512VL the vectors of 128 and 256 bits are enabled by the capability
    macro, but there is no implementation *)
Definition arch_avx512dq : arch := mkArch false true true true true false true true
  false false false true false true false false false false false false false true false false true.
Theorem to_float64_int64_refuted : valid_arch arch_avx512dq = true /\ has_i64_to_f64 arch_avx512dq = true /\
  to_float64_64 arch_avx512dq true 128 [1] = NotImpl /\ to_float64_64 arch_avx512dq true 512 [1] = Ok [0x3ff0000000000000].
Proof. split; [reflexivity|]. split; [reflexivity|]. split; [reflexivity|]. vm_compute. reflexivity. Qed.

(** ------------------- to float32 ------------------- *)
Lemma down_rel (A : arch) T dom (P Q : Z -> Z -> Prop) op : valid_arch A = true -> vsize T ->
  dn (dreg A (vregf A T)) (vregf A T) op dom P -> (forall x y, 0 <= x < 2 ^ 64 -> dom x = true -> P x y -> Q x y) ->
  conv_rel 64 32 (2 * T) T (vregf A (2 * T)) (vregf A T) (conv_down op) dom Q.
Proof.
  intros HV HT H HPQ. rewrite (dreg_flt A HV T HT). destruct (vsize_div A T HT) as [HD HP].
  assert (HS : dreg A (vregf A T) = vregf A T \/ (rbits (dreg A (vregf A T)) = 2 * rbits (vregf A T) /\ T = rbits (vregf A T))).
  { assert (forall k, T = 128 * 2 ^ Z.of_nat k -> T <= 128 -> T = 128) as H128. { intros k Ek Hle. assert (0 < 2 ^ Z.of_nat k) by (apply Z.pow_pos_nonneg; lia). lia. }
    destruct HT as [k Ek]. pose proof (H128 k Ek) as H1. unfold vregf, fast_flt in *. destruct (use_avx512f A) eqn:E5; [|destruct (use_avx A) eqn:EX].
    - pose proof (avx512_avx A HV E5) as EX. destruct (Z.leb_spec T 128); [right; cbn [dreg]; rewrite EX; cbn [rbits]; split; auto|].
      destruct (Z.leb_spec T 256); [right; cbn [dreg]; rewrite E5; split; auto|left; reflexivity].
      destruct HD as [j Hj]. cbn [rbits] in *. nia.
    - destruct (Z.leb_spec T 128); [right; cbn [dreg]; rewrite EX; cbn [rbits]; split; auto|left; cbn [dreg]; rewrite E5; reflexivity].
    - assert (R : forall b : bool, (if b then R128 else R128) = R128) by (intros []; reflexivity). left. destruct (T <=? 128); cbn [dreg]; rewrite EX; reflexivity. }
  intros va Wa La Hd. destruct (lift_down _ _ op dom P T HS HD HP H va Wa La Hd) as (vr & Ev & Wr & Lr & HF).
  exists vr. split; auto. split; auto. split; auto.
  assert (HR : Forall (fun x => 0 <= x < 2 ^ 64) (lanes 64 (dreg A (vregf A T)) va)).
  { apply Forall_forall. intros x Hx. unfold lanes in Hx. apply in_flat_map in Hx as (a & _ & Hx). apply in_elems in Hx; [auto|lia]. }
  revert HR Hd HF. generalize (lanes 64 (dreg A (vregf A T)) va) (lanes 32 (vregf A T) vr). intros l l' HR Hd HF. induction HF as [|x y l l' Hxy HF IH]; constructor.
  - cbn [forallb] in Hd. apply andb_prop in Hd as [Hd _]. inversion HR; subst. auto.
  - cbn [forallb] in Hd. apply andb_prop in Hd as [_ Hd]. inversion HR; subst. auto.
Qed.
Lemma vreg128 A T : vregf A T = R128 -> T <= 128 \/ use_avx A = false.
Proof.
  unfold vregf, fast_flt. intros H. destruct (Z.leb_spec T 128); [left; auto|right]. destruct (use_avx512f A) eqn:E5; [destruct (T <=? 256); discriminate H|].
  destruct (use_avx A); [destruct (T <=? 256); discriminate H|reflexivity].
Qed.
(** rounding to nearest, except on MSA and for the wide registers of AVX512F *)
Theorem to_float32_double_partial : forall A T, valid_arch A = true -> vsize T -> use_msa A = false -> use_avx512f A = false \/ T <= 128 ->
  conv_rel 64 32 (2 * T) T (vregf A (2 * T)) (vregf A T) (to_float32_d A T) all_lanes narrowed.
Proof.
  intros A T HV HT HM HC. destruct (fi_regs A T HV HT) as [HA _].
  apply (down_rel A T all_lanes (is (to_f_d A (vregf A T)))); auto; [apply to_float32_d_dn; auto|].
  intros x y _ _ ->. unfold to_f_d.
  assert (E : match vregf A T with R128 => f_narrow x | _ => if use_avx512f A then f_chop x else f_narrow x end = f_narrow x).
  { destruct HC as [-> |HC]; [destruct (vregf A T); reflexivity|]. unfold vregf. destruct (Z.leb_spec T 128); [|lia]. destruct (fast_flt A); reflexivity. }
  rewrite E. apply f_narrow_ok.
Qed.
(** There the result is rounded towards zero. *)
Theorem to_float32_double_avx512_spec : forall A T, valid_arch A = true -> vsize T -> use_avx512f A = true -> 256 <= T ->
  conv_rel 64 32 (2 * T) T (vregf A (2 * T)) (vregf A T) (to_float32_d A T) all_lanes chopped.
Proof.
  intros A T HV HT H5 HC. destruct (fi_regs A T HV HT) as [HA _].
  assert (HM : use_msa A = false). { pose proof (avx_sse A HV (avx512_avx A HV H5)) as HS. revert HS. clear - HV. fam HV; rw_flags; intros; first [reflexivity | fcontra]. }
  apply (down_rel A T all_lanes (is (to_f_d A (vregf A T)))); auto; [apply to_float32_d_dn; auto|].
  intros x y _ _ ->. unfold to_f_d. rewrite H5.
  assert (E : match vregf A T with R128 => f_narrow x | _ => f_chop x end = f_chop x).
  { unfold vregf, fast_flt. rewrite H5. destruct (Z.leb_spec T 128); [lia|]. destruct (T <=? 256); reflexivity. }
  rewrite E. apply f_chop_ok.
Qed.
(** 1 + 2^-24 + 2^-52 is nearest to 1 + 2^-23: so on SSE2, but AVX512F gives 1; and the largest
    double becomes infinity on SSE2, the largest float32 on AVX512F. *)
Theorem to_float32_double_refuted :
  to_float32_d arch_sse2 128 [0x3ff0000010000001; 0x7fefffffffffffff] = Ok [0x000000007f800000000000003f800001] /\
  to_float32_d arch_avx512f 256 [0x7fefffffffffffff0000000000000000 + 0x3ff0000010000001] = Ok [0x7f7fffff3f800000] /\
  f_narrow 0x3ff0000010000001 = 0x3f800001.
Proof. split; [vm_compute; reflexivity|]. split; vm_compute; reflexivity. Qed.
(** On MSA the numbers are rounded correctly but every two pairs change places: fexdo takes the low
    half of its result from the second operand. *)
Fixpoint swap_pairs (va : vec) : vec := match va with a :: b :: t => b :: a :: swap_pairs t | _ => va end.
Theorem to_float32_double_msa_spec : forall A T va, valid_arch A = true -> vsize T -> use_msa A = true ->
  wfv R128 va -> Z.of_nat (length va) * 128 = 2 * T ->
  exists vr, to_float32_d A T va = Ok vr /\ wfv R128 vr /\ Forall2 narrowed (lanes 64 R128 (swap_pairs va)) (lanes 32 R128 vr).
Proof.
  intros A T va HV HT HM Wa La.
  assert (Es : vregf A T = R128). { assert (use_avx A = false /\ use_avx512f A = false) as [E1 E2]. { destruct (use_avx A) eqn:EX; [exfalso; vimp HV|]. destruct (use_avx512f A) eqn:E5; [exfalso; vimp HV|auto]. }
    unfold vregf, fast_flt. rewrite E1, E2. destruct (T <=? 128); reflexivity. }
  unfold to_float32_d. rewrite Es. destruct (vsize_div A T HT) as [HD HP]. rewrite Es in HD. cbn [rbits] in HD.
  assert (G : forall n va k, (length va <= n)%nat -> wfv R128 va -> Z.of_nat (length va) = 2 * k -> exists vr, conv_pairs (i_to_float32_d A R128) va = Ok vr /\ wfv R128 vr /\ Forall2 narrowed (lanes 64 R128 (swap_pairs va)) (lanes 32 R128 vr)).
  { clear - HV HM. induction n as [|n IH]; intros va k Hn Wa Lk; (destruct va as [|a [|b va]]).
    1, 4: exists []; split; [reflexivity|split; constructor].
    1, 2, 3: exfalso; cbn [length] in *; lia.
    apply wfv_cons in Wa. destruct Wa as [Ha Wa]. apply wfv_cons in Wa. destruct Wa as [Hb Wa].
    destruct (to_float32_d_msa A HV a b HM) as [E [Hr He]]. destruct (IH va (k - 1)) as (vr & Ev & Wv & HF); auto; [cbn [length] in Hn; lia|cbn [length] in Lk; lia|].
    exists (msa_fexdo a b :: vr). cbn [conv_pairs swap_pairs]. rewrite E. cbn [bind]. rewrite Ev. cbn [bind]. split; [reflexivity|]. split; [apply wfv_cons; auto|].
    assert (EL : lanes 64 R128 (b :: a :: swap_pairs va) = (elems 64 2 b ++ elems 64 2 a) ++ lanes 64 R128 (swap_pairs va)) by (unfold lanes; cbn [flat_map]; rewrite app_assoc; reflexivity).
    rewrite EL, lanes_cons. apply Forall2_app; [|exact HF]. change (nl 64 (rbits R128)) with 2%nat in He. rewrite He. apply Forall2_map_in. intros x _. apply f_narrow_ok. }
  destruct HD as [k Hk]. destruct (G (length va) va k (le_n _) Wa) as (vr & Ev & R); [lia|]. exists vr. split; [|exact R].
  destruct va as [|a [|b va]]; try exact Ev. exfalso. cbn [length] in La. lia.
Qed.
Theorem to_float32_double_msa_refuted :
  to_float32_d arch_msa 128 [0xc0060000000000003ff8000000000000; 0] = Ok [0xc03000003fc000000000000000000000] /\
  to_float32_d arch_vsx207 128 [0xc0060000000000003ff8000000000000; 0] = Ok [0xc03000003fc00000].
Proof. split; vm_compute; reflexivity. Qed.

(** float32 to float64 and back: nothing is lost, also on AVX512F; on MSA the
    numbers change places *)
Theorem float64_round_trip_partial : forall A T va, valid_arch A = true -> vsize T -> use_msa A = false -> wfv (vregf A T) va -> Z.of_nat (length va) * rbits (vregf A T) = T ->
  forallb (fun x => negb (f_nan 32 x)) (lanes 32 (vregf A T) va) = true ->
  exists v vr, to_float64_f A T va = Ok v /\ to_float32_d A T v = Ok vr /\ lanes 32 (vregf A T) vr = lanes 32 (vregf A T) va.
Proof.
  intros A T va HV HT HM Wa La HN. destruct (fi_regs A T HV HT) as [HA _].
  assert (H1 : conv_rel 32 64 T (2 * T) (vregf A T) (vregf A (2 * T)) (to_float64_f A T) all_lanes (is f_widen)).
  { rewrite (dreg_flt A HV T HT). apply (lift_up_map (vregf A T) (dreg A (vregf A T)) f_widen); [|reflexivity]. intros a Ha. apply i_to_float64_f_ok; auto. }
  destruct (H1 va Wa La) as (v & Ev & Wv & Lv & HF); [apply forallb_forall; reflexivity|].
  assert (H2 : conv_rel 64 32 (2 * T) T (vregf A (2 * T)) (vregf A T) (to_float32_d A T) all_lanes (is (to_f_d A (vregf A T)))).
  { apply (down_rel A T all_lanes (is (to_f_d A (vregf A T)))); auto. apply to_float32_d_dn; auto. }
  destruct (H2 v Wv Lv) as (vr & Er & Wr & Lr & HG); [apply forallb_forall; reflexivity|].
  exists v, vr. split; auto. split; auto.
  assert (HR : Forall (fun x => 0 <= x < 2 ^ 32) (lanes 32 (vregf A T) va)).
  { apply Forall_forall. intros x Hx. unfold lanes in Hx. apply in_flat_map in Hx as (a & _ & Hx). apply in_elems in Hx; [auto|lia]. }
  revert HR HN HF HG. generalize (lanes 32 (vregf A T) va) (lanes 64 (vregf A (2 * T)) v) (lanes 32 (vregf A T) vr). intros l m r HR HN HF. revert r.
  induction HF as [|x y l m Hxy HF IH]; intros r HG; inversion HG; subst; [reflexivity|]. cbn [forallb] in HN. apply andb_prop in HN as [HN HN2]. inversion HR; subst.
  f_equal; [|apply IH; auto]. apply Bool.negb_true_iff in HN. unfold is, to_f_d in *. subst. destruct (vregf A T); [apply narrow_widen; auto| |]; (destruct (use_avx512f A); [apply chop_widen|apply narrow_widen]; auto).
Qed.

(** ------------------- to int32 and uint32 ------------------- *)
Lemma int_rel (A : arch) T sg dom (Q : Z -> Z -> Prop) : valid_arch A = true -> vsize T -> (sg = true \/ has_f64_to_u32 A = true) ->
  (forall x, dom x = true -> d_dom A sg x = true) -> (forall x, 0 <= x < 2 ^ 64 -> dom x = true -> Q x (to_i_d A sg x)) ->
  conv_rel 64 32 (2 * T) T (vregf A (2 * T)) (vreg A 32 T) (if sg then to_int32_d A T else to_uint32_d A T) dom Q.
Proof.
  intros HV HT Hsg HD HQ. destruct (fi_regs A T HV HT) as [HA HR].
  assert (HW : forall s' s op T', (conv_rel 64 32 (2 * T') T' s' s op (d_dom A sg) (is (to_i_d A sg)) -> conv_rel 64 32 (2 * T') T' s' s op dom Q)).
  { intros s' s op T' H va Wa La Hd. destruct (H va Wa La) as (vr & Ev & Wr & Lr & HF).
    { apply forallb_forall. intros x Hx. apply HD. rewrite forallb_forall in Hd. auto. }
    exists vr. split; auto. split; auto. split; auto.
    assert (HRg : Forall (fun x => 0 <= x < 2 ^ 64) (lanes 64 s' va)).
    { apply Forall_forall. intros x Hx. unfold lanes in Hx. apply in_flat_map in Hx as (a & _ & Hx). apply in_elems in Hx; [auto|lia]. }
    revert HRg Hd HF. generalize (lanes 64 s' va) (lanes 32 s vr). intros l l' HRg Hd HF. induction HF as [|x y l l' Hxy HF IH]; constructor; cbn [forallb] in Hd; apply andb_prop in Hd as [Hd Hd2]; inversion HRg; subst; auto.
    rewrite Hxy. auto. }
  apply HW. clear HW HQ HD.
  assert (HC : use_avx A && negb (use_avx2 A) = false -> vreg A 32 T = vregf A T).
  { intros E. destruct HR as [[HR _]|(_ & _ & E2 & EX & _)]; [auto|]. rewrite E2, EX in E. discriminate E. }
  assert (HA128 : avail_flt A R128 = true) by reflexivity.
  destruct sg.
  - unfold to_int32_d. destruct (use_avx A && negb (use_avx2 A)) eqn:EC.
    + apply andb_prop in EC as [EX E2]. apply Bool.negb_true_iff in E2.
      assert (E5 : use_avx512f A = false) by (destruct (use_avx512f A) eqn:E; [exfalso; vimp HV|reflexivity]).
      assert (Ev : vreg A 32 T = R128). { destruct HR as [[HR HI]|(_ & HR & _)]; [|exact HR]. rewrite <- HR. destruct (vregf A T) eqn:EF; [reflexivity| |]; cbn [avail_int] in HI; change (32 <=? 16) with false in HI; cbn iota in HI; rewrite ?E2, ?E5 in HI; discriminate HI. }
      rewrite (dreg_flt A HV T HT). rewrite Ev.
      assert (ED : dreg A (vregf A T) = R256). { destruct (vregf A T); cbn [dreg]; rewrite ?EX, ?E5; try reflexivity. cbn [avail_flt] in HA. rewrite E5 in HA. discriminate HA. }
      rewrite ED.
      assert (HS : to_i_d A true = dcvtt_s) by (unfold to_i_d; rewrite (avx_sse A HV EX); reflexivity).
      assert (L1 : conv_rel 64 32 (2 * T) T R256 R128 (vec_impl1 (fun a => i_to_int32_d A R128 [a])) (d_dom A true) (is (to_i_d A true))).
      { apply (lift_one R256 R128 (i_to_int32_d A R128)); [reflexivity|]. pose proof (to_int32_d_dn A HV R128 HA128) as H. cbn [dreg] in H. rewrite EX in H. exact H. }
      intros va Wa La Hd. destruct va as [|a [|b [|c va]]]; try (apply L1; assumption).
      clear L1. rewrite HS. cbn [wfv] in Wa. eexists. split; [reflexivity|]. pose proof (d1_down dcvtt_s (fun x _ => dcvtt_s_ran x) R256 R128) as HD.
      pose proof (F2_d1 _ _ _ _ _ (HD a eq_refl)) as [Ra Fa]. pose proof (F2_d1 _ _ _ _ _ (HD b eq_refl)) as [Rb Fb].
      split; [apply wfv_cons; split; [exact Ra|apply wfv_cons; split; [exact Rb|constructor]]|]. split; [cbn [length rbits] in *; lia|].
      unfold lanes; cbn [flat_map]; rewrite !app_nil_r. apply Forall2_app; auto.
    + rewrite (HC eq_refl). destruct (vsize_div A T HT) as [HDv HP]. apply (down_rel A T (d_dom A true) (is (to_i_d A true))); auto. apply to_int32_d_dn; auto.
  - destruct Hsg as [Hsg|Hsg]; [discriminate Hsg|]. unfold to_uint32_d. rewrite Hsg.
    assert (HB : use_sse2 A = false \/ use_avx512f A = true).
    { unfold has_f64_to_u32, use_neon64 in Hsg. destruct (use_avx512f A); [right; reflexivity|left]. revert Hsg. clear - HV. fam HV; rw_flags; cbn [orb andb]; intros HI; first [reflexivity | discriminate HI | fcontra]. }
    destruct (use_avx A && negb (use_avx2 A)) eqn:EC.
    + exfalso. apply andb_prop in EC as [EX E2]. apply Bool.negb_true_iff in E2. destruct HB as [HB|HB]; [rewrite (avx_sse A HV EX) in HB; discriminate HB|vimp HV].
    + rewrite (HC eq_refl). apply (down_rel A T (d_dom A false) (is (to_i_d A false))); auto. apply to_uint32_d_dn; auto.
Qed.
Lemma dfit_range sg x : dfits sg x = true -> f_finite 64 x = true /\ (if sg then - 2 ^ 31 <= f_int 64 x <= 2 ^ 31 - 1 else 0 <= f_int 64 x <= 2 ^ 32 - 1).
Proof. destruct sg; cbn [dfits]; intros H; apply fits_spec in H; auto. Qed.
Lemma fin_not_nan x : f_finite 64 x = true -> f_nan 64 x = false.
Proof. intros H. destruct (f_class 64 x) as [(_ & _ & E)|[(_ & _ & E)|(E & _ & _)]]; auto; rewrite H in E; discriminate E. Qed.
Ltac pn := change (2 ^ 31) with 2147483648 in *; change (2 ^ 32) with 4294967296 in *; change (2 ^ 63) with 9223372036854775808 in *; change (2 ^ 64) with 18446744073709551616 in *; change (2 ^ (64 - 1)) with 9223372036854775808 in *; change (2 ^ (32 - 1)) with 2147483648 in *.
Lemma to_i_d_fits A sg x : dfits sg x = true -> to_i_d A sg x = f_int 64 x mod 2 ^ 32.
Proof.
  intros H. destruct (dfit_range sg x H) as [HF HI]. pose proof (fin_not_nan x HF) as HN. unfold to_i_d.
  assert (S1 : sg = true -> dsat_s x = wrap 64 (f_int 64 x)) by (intros ->; unfold dsat_s, dsat; rewrite HN; f_equal; pn; lia).
  assert (S2 : sg = false -> dsat_u x = f_int 64 x) by (intros ->; unfold dsat_u, dsat; rewrite HN; rewrite wrap_small; pn; lia).
  assert (U : sg = false -> f_int 64 x = f_int 64 x mod 2 ^ 32) by (intros ->; symmetry; apply Z.mod_small; pn; lia).
  assert (W : wrap 32 (wrap 64 (f_int 64 x)) = f_int 64 x mod 2 ^ 32).
  { unfold wrap. symmetry. apply Znumtheory.Zmod_div_mod; [reflexivity|reflexivity|exists (2 ^ 32); reflexivity]. }
  destruct sg; cbn [dfits] in H.
  - rewrite (S1 eq_refl). destruct (use_sse2 A); [unfold dcvtt_s; rewrite H; reflexivity|].
    destruct (use_neon64 A); [|destruct (use_vsx206 A || use_msa A); [exact W|reflexivity]].
    unfold qmovn_s. rewrite sgn_wrap, sgn_id by (pn; lia). unfold wrap. f_equal. pn; lia.
  - rewrite (S2 eq_refl). destruct (use_sse2 A); [unfold dcvtt_u; rewrite H; auto|].
    destruct (use_neon64 A); [|destruct (use_vsx206 A || use_msa A); reflexivity].
    unfold qmovn_u. rewrite <- (U eq_refl). pn; lia.
Qed.
(** the integer part, where it is representable, on every architecture *)
Theorem to_int32_double_spec : forall A T, valid_arch A = true -> vsize T ->
  conv_rel 64 32 (2 * T) T (vregf A (2 * T)) (vreg A 32 T) (to_int32_d A T) dfits_s32 (is (fun x => f_int 64 x mod 2 ^ 32)).
Proof.
  intros A T HV HT. apply (int_rel A T true dfits_s32); auto.
  - intros x H. unfold d_dom. cbn [dfits]. rewrite H. reflexivity.
  - intros x _ H. apply (to_i_d_fits A true). exact H.
Qed.
Theorem to_uint32_double_partial : forall A T, valid_arch A = true -> vsize T -> has_f64_to_u32 A = true ->
  conv_rel 64 32 (2 * T) T (vregf A (2 * T)) (vreg A 32 T) (to_uint32_d A T) dfits_u32 (is (f_int 64)).
Proof.
  intros A T HV HT HH. apply (int_rel A T false dfits_u32); auto.
  - intros x H. unfold d_dom. cbn [dfits]. rewrite H. reflexivity.
  - intros x _ H. pose proof (to_i_d_fits A false x H) as E. unfold is. rewrite E. destruct (dfit_range false x H) as [_ HI]. cbn iota in HI. apply Z.mod_small. pn. lia.
Qed.
Theorem to_uint32_double_refuted : valid_arch arch_avx2 = true /\ dfits_u32 0 = true /\ to_uint32_d arch_avx2 128 [0] = NotImpl.
Proof. split; [reflexivity|]. split; reflexivity. Qed.
(** "SSE specific: If the value can not be represented by int32_t, 0x80000000 is returned" *)
Theorem to_int32_double_x86_spec : forall A T, valid_arch A = true -> vsize T -> use_sse2 A = true ->
  conv_rel 64 32 (2 * T) T (vregf A (2 * T)) (vreg A 32 T) (to_int32_d A T) all_lanes
    (is (fun x => if dfits_s32 x then f_int 64 x mod 2 ^ 32 else 0x80000000)).
Proof.
  intros A T HV HT HS. apply (int_rel A T true all_lanes); auto.
  - intros x _. unfold d_dom, c_doubles. rewrite HS. cbn [orb negb]. apply orb_true_r.
  - intros x _ _. unfold is, to_i_d. rewrite HS. reflexivity.
Qed.
(** 64-bit ARM saturates; NaN gives 0 *)
Theorem to_int32_double_neon64_spec : forall A T, valid_arch A = true -> vsize T -> use_neon64 A = true ->
  conv_rel 64 32 (2 * T) T (vregf A (2 * T)) (vreg A 32 T) (to_int32_d A T) all_lanes
    (fun x r => if f_nan 64 x then r = 0 else sgn 32 r = Z.max (- 2 ^ 31) (Z.min (2 ^ 31 - 1) (f_int 64 x))).
Proof.
  intros A T HV HT HS. assert (HX : use_sse2 A = false). { revert HS. unfold use_neon64. fam HV; rw_flags; cbn [andb]; intros HI; first [reflexivity | discriminate HI | fcontra]. }
  apply (int_rel A T true all_lanes); auto.
  - intros x _. unfold d_dom, c_doubles. rewrite HS, orb_true_r. cbn [orb negb]. apply orb_true_r.
  - intros x _ _. unfold to_i_d. rewrite HS, HX. unfold qmovn_s, dsat_s, dsat. destruct (f_nan 64 x); [reflexivity|].
    rewrite !sgn_wrap. rewrite (sgn_id 64) by (pn; lia). rewrite sgn_id by (pn; lia). pn. lia.
Qed.
Theorem to_uint32_double_neon64_spec : forall A T, valid_arch A = true -> vsize T -> use_neon64 A = true ->
  conv_rel 64 32 (2 * T) T (vregf A (2 * T)) (vreg A 32 T) (to_uint32_d A T) all_lanes
    (fun x r => r = if f_nan 64 x then 0 else Z.max 0 (Z.min (2 ^ 32 - 1) (f_int 64 x))).
Proof.
  intros A T HV HT HS. assert (HX : use_sse2 A = false). { revert HS. unfold use_neon64. fam HV; rw_flags; cbn [andb]; intros HI; first [reflexivity | discriminate HI | fcontra]. }
  apply (int_rel A T false all_lanes); auto.
  - right. unfold has_f64_to_u32. rewrite HS, !orb_true_r. reflexivity.
  - intros x _. unfold d_dom, c_doubles. rewrite HS, orb_true_r. cbn [orb negb]. apply orb_true_r.
  - intros x _ _. unfold to_i_d. rewrite HS, HX. unfold qmovn_u, dsat_u, dsat. destruct (f_nan 64 x); [reflexivity|].
    rewrite wrap_small by (pn; lia). pn. lia.
Qed.
(** POWER and MIPS: "If the value can not be represented" the low half of the 64-bit integer is
    returned: 2^32 gives 0 *)
Theorem to_int32_double_vsx_msa_spec : forall A T, valid_arch A = true -> vsize T -> use_vsx206 A || use_msa A = true ->
  conv_rel 64 32 (2 * T) T (vregf A (2 * T)) (vreg A 32 T) (to_int32_d A T) all_lanes
    (is (fun x => if f_nan 64 x then 0 else Z.max (- 2 ^ 63) (Z.min (2 ^ 63 - 1) (f_int 64 x)) mod 2 ^ 32)).
Proof.
  intros A T HV HT HS. assert (HX : use_sse2 A = false /\ use_neon64 A = false). { revert HS. unfold use_neon64. fam HV; rw_flags; cbn [andb orb]; intros HI; first [solve [split; reflexivity] | discriminate HI | fcontra]. }
  destruct HX as [HX HY]. apply (int_rel A T true all_lanes); auto.
  - intros x _. unfold d_dom, c_doubles. rewrite HX, HY. cbn [orb]. rewrite HS. cbn [negb]. apply orb_true_r.
  - intros x _ _. unfold is, to_i_d. rewrite HS, HX, HY. unfold dsat_s, dsat. destruct (f_nan 64 x); [reflexivity|].
    unfold wrap. symmetry. apply Znumtheory.Zmod_div_mod; [reflexivity|reflexivity|exists (2 ^ 32); reflexivity].
Qed.
Theorem to_int32_double_overflow_refuted :
  to_int32_d arch_vsx207 128 [0x41f0000000000000; 0] = Ok [0] /\ f_int 64 0x41f0000000000000 = 2 ^ 32 /\
  to_int32_d arch_null 128 [0x41f0000000000000; 0] = UB.
Proof. split; [vm_compute; reflexivity|]. split; vm_compute; reflexivity. Qed.

(** Concrete cases: 1.5 and -2.75; a denormal float32; 3e9 as uint32_t *)
Example fconv64_case :
  to_float64_f arch_sse2 128 [0x0000000100000001c03000003fc00000] = Ok [0xc0060000000000003ff8000000000000; 0x36a000000000000036a0000000000000] /\
  f_val 64 0x36a0000000000000 = 2 ^ 925 /\ widened 0x00000001 0x36a0000000000000 /\
  to_float64_u arch_avx 128 [3000000000] = Ok [0x41e65a0bc0000000] /\
  to_float32_d arch_vsx207 128 [0xc0060000000000003ff8000000000000; 0] = Ok [0xc03000003fc00000] /\
  to_int32_d arch_avx 256 [0xc0060000000000003ff8000000000000; 0x7ff8000000000000] = Ok [0xfffffffe00000001; 0x80000000] /\
  to_uint32_d arch_neon64 128 [0x41e65a0bc00000004202a05f20000000; 0] = Ok [0xb2d05e00ffffffff].
Proof.
  split; [vm_compute; reflexivity|]. split; [vm_compute; reflexivity|]. split; [assert (E : 0x36a0000000000000 = f_widen 1) by (vm_compute; reflexivity); rewrite E; apply f_widen_ok|].
  split; [vm_compute; reflexivity|]. split; [vm_compute; reflexivity|]. split; vm_compute; reflexivity.
Qed.
