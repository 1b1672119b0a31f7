(** log2_approx: what one lane becomes *)
From Verif Require Export Model.Log2.
From Verif Require Import Proof.FloatsP3 Proof.FConvP2 Proof.ShiftP Thm.T_Floats Thm.T_FArith Thm.T_Arith Thm.T_Bitwise Thm.T_Blend Thm.T_Shift Thm.T_Const Thm.T_Cast Thm.T_FConv Base.ShufLift Spec.Masks.
From Coq Require Import Lia.

Definition l2_exp (x : Z) : Z := x / 2 ^ 23 mod 256.
Definition l2_mant (x : Z) : Z := 0x3f800000 + x mod 2 ^ 23 + (if f_neg 32 x then 2 ^ 31 else 0).
Definition l2_poly (m : Z) : Z := f_sub 32 (f_mul 32 (f_add 32 (f_mul 32 log2_c2 m) log2_c1) m) log2_c0.
Definition l2_lane (x : Z) : Z := f_add 32 (f_of_int 32 (l2_exp x - 128)) (l2_poly (l2_mant x)).

Lemma zipw_repeat {Y Z'} (f : Z -> Y -> Z') c l n : length l = n -> zipw f (repeat c n) l = map (f c) l.
Proof. intros <-. induction l as [|y l IH]; [reflexivity|]. cbn [length repeat zipw map]. rewrite IH. reflexivity. Qed.
Lemma zipw_repeat_r {X Z'} (f : X -> Z -> Z') c l n : length l = n -> zipw f l (repeat c n) = map (fun x => f x c) l.
Proof. intros <-. induction l as [|y l IH]; [reflexivity|]. cbn [length repeat zipw map]. rewrite IH. reflexivity. Qed.
Lemma zipw3_repeat {Y Z'} (f : Z -> Y -> Z -> Z') c d l n : length l = n -> zipw3 f (repeat c n) l (repeat d n) = map (fun y => f c y d) l.
Proof. intros <-. induction l as [|y l IH]; [reflexivity|]. cbn [length repeat zipw3 map]. rewrite IH. reflexivity. Qed.
Lemma zipw_same {X Z'} (f : X -> X -> Z') l : zipw f l l = map (fun x => f x x) l.
Proof. induction l as [|y l IH]; [reflexivity|]. cbn. rewrite IH. reflexivity. Qed.

(** a vector of T bits in registers s, and its lanes *)
Definition holds (s : rsz) (T : Z) (l : list Z) (v : vec) : Prop :=
  wfv s v /\ Z.of_nat (length v) * rbits s = T /\ lanes 32 s v = l.
Lemma holds_len s T l v : holds s T l v -> length v = Z.to_nat (T / rbits s) /\ length l = Z.to_nat (T / 32).
Proof.
  intros (W & L & E). assert (0 < rbits s) by (destruct s; reflexivity). split.
  - rewrite <- L, Z.div_mul by lia. lia.
  - rewrite <- E, lanes_length. unfold nl. rewrite <- L. destruct s; cbn [rbits].
    + replace (Z.of_nat (length v) * 128) with (Z.of_nat (length v) * 4 * 32) by lia. rewrite Z.div_mul by lia. change (Z.to_nat (128 / 32)) with 4%nat || change (Z.to_nat (4 * 32 / 32)) with 4%nat. lia.
    + replace (Z.of_nat (length v) * 256) with (Z.of_nat (length v) * 8 * 32) by lia. rewrite Z.div_mul by lia. change (Z.to_nat (256 / 32)) with 8%nat || change (Z.to_nat (8 * 32 / 32)) with 8%nat. lia.
    + replace (Z.of_nat (length v) * 512) with (Z.of_nat (length v) * 16 * 32) by lia. rewrite Z.div_mul by lia. change (Z.to_nat (512 / 32)) with 16%nat || change (Z.to_nat (16 * 32 / 32)) with 16%nat. lia.
Qed.
Lemma T_regs s T (v : vec) : Z.of_nat (length v) * rbits s = T -> Z.of_nat (Z.to_nat (T / rbits s)) * rbits s = T.
Proof. assert (0 < rbits s) by (destruct s; reflexivity). intros <-. rewrite Z.div_mul by lia. rewrite Nat2Z.id. reflexivity. Qed.

Lemma i_make_float_ok A s c : valid_arch A = true -> avail_flt A s = true -> i_make_float A s c = Ok (splat 32 (rbits s) c).
Proof.
  intros HV HA. unfold i_make_float, use_neon_no_flt_sp. destruct s; cbn [avail_flt rbits] in *; rewrite ?HA; try reflexivity.
  fam HV; rw_flags; cbn [orb andb negb]; repeat split_if; reflexivity.
Qed.
Lemma map_const {X} (f : X -> Z) c l : (forall i, In i l -> f i = c) -> map f l = repeat c (length l).
Proof. induction l as [|x l IH]; intros H; [reflexivity|]. cbn [map length repeat]. f_equal; [apply H; left; reflexivity|]. apply IH. intros i Hi. apply H. right. exact Hi. Qed.
Lemma lor_add a b : Z.land a b = 0 -> Z.lor a b = a + b.
Proof. intros H. rewrite <- Z.lxor_lor by exact H. symmetry. apply Z.add_nocarry_lxor. exact H. Qed.
  Lemma l2_int x : 0 <= x < 2 ^ 32 -> sgn 32 (s_sub 32 (Z.land (s_shr_u 32 23 x) 255) 128) = l2_exp x - 128.
  Proof.
    intros Hx. unfold s_shr_u. change 255 with (Z.ones 8). rewrite Z.land_ones by lia. change (2 ^ 8) with 256. fold (l2_exp x).
    assert (0 <= l2_exp x < 256) by (apply Z.mod_pos_bound; lia). unfold s_sub.
    change ((l2_exp x - 128) mod 2 ^ 32) with (wrap 32 (l2_exp x - 128)). rewrite sgn_wrap by lia. apply sgn_id; [lia|]. change (2 ^ (32 - 1)) with 2147483648. lia.
  Qed.
  Lemma l2_man x : 0 <= x < 2 ^ 32 -> Z.lor (Z.land 0x3f800000 0x7f800000) (Z.ldiff x 0x7f800000) = l2_mant x.
  Proof.
    intros Hx. change (Z.land 0x3f800000 0x7f800000) with 0x3f800000. unfold l2_mant.
    assert (B : Z.ldiff x 0x7f800000 = (if f_neg 32 x then 2 ^ 31 else 0) + x mod 2 ^ 23).
    { assert (E : Z.ldiff x 0x7f800000 = Z.land x (Z.lor 0x80000000 (Z.ones 23))).
      { apply Z.bits_inj'. intros n Hn. rewrite Z.ldiff_spec, Z.land_spec.
        destruct (Z.ltb_spec n 32).
        - f_equal. assert (In n (zrange 32)) as Hi by (unfold zrange; apply in_map_iff; exists (Z.to_nat n); split; [lia|apply in_seq; lia]).
          revert n Hn H Hi. clear. intros n _ _. revert n. apply Forall_forall. vm_compute. repeat constructor.
        - rewrite (Z.bits_above_log2 x n); [reflexivity|lia|]. destruct (Z.eq_dec x 0) as [->|]; [cbn; lia|]. apply Z.log2_lt_pow2; [lia|]. apply Z.lt_le_trans with (2 ^ 32); [lia|]. apply Z.pow_le_mono_r; lia. }
      rewrite E, Z.land_lor_distr_r, Z.land_ones by lia.
      assert (E1 : Z.land x 0x80000000 = if f_neg 32 x then 2 ^ 31 else 0).
      { unfold f_neg. change (32 - 1) with 31.
        replace (Z.land x 0x80000000) with (Z.shiftl (Z.land (Z.shiftr x 31) 1) 31) by (rewrite Z.shiftl_land, <- Z.ldiff_ones_r by lia; change (Z.shiftl 1 31) with 0x80000000;
          apply Z.bits_inj'; intros n Hn; rewrite !Z.land_spec, Z.ldiff_spec; change 0x80000000 with (2 ^ 31); rewrite Z.pow2_bits_eqb by lia;
          destruct (Z.eqb_spec 31 n) as [<-|]; [|rewrite !andb_false_r; reflexivity]; rewrite Z.ones_spec_high by lia; cbn; rewrite !andb_true_r; reflexivity).
        rewrite Z.shiftr_div_pow2 by lia. change 1 with (Z.ones 1). rewrite Z.land_ones by lia. change (2 ^ 1) with 2. rewrite Z.shiftl_mul_pow2 by lia.
        pose proof (Z.div_mod x (2 ^ 31) ltac:(lia)). pose proof (Z.mod_pos_bound x (2 ^ 31) ltac:(lia)).
        change (2 ^ 31) with 2147483648 in *. change (2 ^ 32) with 4294967296 in *.
        destruct (Z.leb_spec 2147483648 x).
        - replace (x / 2147483648) with 1 by lia. reflexivity.
        - replace (x / 2147483648) with 0 by lia. reflexivity. }
      rewrite E1. apply lor_add.
      assert (Z.land (if f_neg 32 x then 2 ^ 31 else 0) (x mod 2 ^ 23) = 0) as ->; [|reflexivity].
      rewrite <- Z.land_ones by lia. rewrite (Z.land_comm x), Z.land_assoc. destruct (f_neg 32 x); [change (Z.land (2 ^ 31) (Z.ones 23)) with 0|change (Z.land 0 (Z.ones 23)) with 0]; apply Z.land_0_l. }
    rewrite B. set (t := x mod 2 ^ 23). assert (0 <= t < 2 ^ 23) by (apply Z.mod_pos_bound; lia).
    assert (L0 : Z.land (if f_neg 32 x then 2 ^ 31 else 0) t = 0).
    { unfold t. rewrite <- Z.land_ones by lia. rewrite (Z.land_comm x), Z.land_assoc. destruct (f_neg 32 x); [change (Z.land (2 ^ 31) (Z.ones 23)) with 0|change (Z.land 0 (Z.ones 23)) with 0]; apply Z.land_0_l. }
    assert (L1 : Z.land 0x3f800000 ((if f_neg 32 x then 2 ^ 31 else 0) + t) = 0).
    { rewrite <- (lor_add _ t L0).
      rewrite Z.land_lor_distr_r. unfold t. rewrite <- Z.land_ones by lia. rewrite (Z.land_comm x), Z.land_assoc. change (Z.land 0x3f800000 (Z.ones 23)) with 0. rewrite Z.land_0_l, Z.lor_0_r.
      destruct (f_neg 32 x); reflexivity. }
    rewrite lor_add by exact L1. unfold t. lia.
  Qed.
Section S.
  Variables (A : arch) (T : Z).
  Hypotheses (HV : valid_arch A = true) (HT : vsize T).
  Notation sF := (vregf A T).
  Notation sI := (vreg A 32 T).
  Let HF : avail_flt A sF = true := proj1 (fi_regs A T HV HT).
  Let HI : avail_int A 32 sI = true.
  Proof. clear HF. destruct (fi_regs A T HV HT) as [_ [[E H]|(E1 & E2 & _)]]; [rewrite <- E; exact H|rewrite E2; reflexivity]. Qed.
  Let n32 := Z.to_nat (T / 32).

  Lemma const_holds (v : vec) s c : Z.of_nat (length v) * rbits s = T -> avail_int A 32 s = true -> 0 <= c < 2 ^ 32 ->
    exists r, make_const A W32 s [c] (Z.to_nat (T / rbits s)) = Ok r /\ holds s T (repeat c n32) r.
  Proof.
    intros HL HA Hc. destruct (make_const_spec A W32 s [c] (Z.to_nat (T / rbits s)) HV HA ltac:(cbn; lia)) as (r & E & W & L & EL).
    exists r. split; [exact E|]. split; [exact W|]. split; [rewrite L; eapply T_regs; eauto|].
    assert (N : length (lanes 32 s r) = n32).
    { apply (holds_len s T (lanes 32 s r) r). repeat split; auto. rewrite L. eapply T_regs; eauto. }
    cbn [wb] in EL. rewrite EL in N |- *. rewrite map_length in N. rewrite <- N.
    generalize (zrange (Z.of_nat (Z.to_nat (T / rbits s)) * (rbits s / 32))). clear - Hc. induction l as [|k l IH]; [reflexivity|].
    cbn [map length repeat]. rewrite IH. f_equal. unfold cyclic. cbn [length]. change (Z.of_nat 1) with 1. rewrite Z.mod_1_r. cbn [Z.to_nat nth]. apply Z.mod_small. exact Hc.
  Qed.
  Lemma fconst_holds (v : vec) s c : Z.of_nat (length v) * rbits s = T -> avail_flt A s = true -> 0 <= c < 2 ^ 32 ->
    exists r, make_float A s c (Z.to_nat (T / rbits s)) = Ok r /\ holds s T (repeat c n32) r.
  Proof.
    intros HL HA Hc.
    assert (G : forall n, exists r, make_float A s c n = Ok r /\ wfv s r /\ length r = n /\ lanes 32 s r = repeat c (nl 32 (rbits s) * n)).
    { induction n as [|n (r & E & W & L & EL)].
      - exists []. repeat split; [constructor|]. rewrite Nat.mul_0_r. reflexivity.
      - exists (splat 32 (rbits s) c :: r). cbn [make_float]. rewrite i_make_float_ok by auto. cbn [bind]. rewrite E. split; [reflexivity|].
        assert (wok 32 (rbits s) = true) as Hw by (destruct s; reflexivity).
        split; [apply wfv_cons; split; [apply splat_reg; exact Hw|exact W]|]. split; [cbn [length]; lia|].
        rewrite lanes_cons, EL, Nat.mul_succ_r, Nat.add_comm, repeat_app. f_equal.
        unfold elems. rewrite (map_const _ c), seq_length; [reflexivity|]. intros i Hi. apply in_seq in Hi. rewrite lane_splat_g.
        + unfold wrap. apply Z.mod_small. exact Hc.
        + exact Hw.
        + pose proof (nl_div 32 (rbits s) Hw). lia. }
    destruct (G (Z.to_nat (T / rbits s))) as (r & E & W & L & EL). exists r. split; [exact E|].
    assert (H : holds s T (lanes 32 s r) r) by (repeat split; auto; rewrite L; eapply T_regs; eauto).
    destruct (holds_len _ _ _ _ H) as [_ N]. rewrite EL in *. rewrite repeat_length in N. unfold n32. rewrite <- N. exact H.
  Qed.
  Lemma h1 s op f l v : computes1 32 s op f -> holds s T l v -> exists r, op v = Ok r /\ holds s T (map f l) r.
  Proof.
    intros H (W & L & E). destruct (H v W) as (r & Er & Wr & Lr & EL). exists r. split; [exact Er|]. repeat split; auto; [rewrite Lr; exact L|]. rewrite EL, E. reflexivity.
  Qed.
  Lemma same_len s l v l' v' : holds s T l v -> holds s T l' v' -> length v = length v'.
  Proof. intros H H'. apply holds_len in H. apply holds_len in H'. lia. Qed.
  Lemma h2 s op f l v l' v' : computes2 32 s op f -> holds s T l v -> holds s T l' v' -> exists r, op v v' = Ok r /\ holds s T (zipw f l l') r.
  Proof.
    intros H H1 H2. pose proof (same_len _ _ _ _ _ H1 H2) as EL'. destruct H1 as (W & L & E), H2 as (W' & L' & E').
    destruct (H v v' W W' EL') as (r & Er & Wr & Lr & EL). exists r. split; [exact Er|].
    repeat split; auto; [rewrite Lr; exact L|]. rewrite EL, E, E'. reflexivity.
  Qed.
  Lemma h3 s op f l v l' v' l'' v'' : computes3 32 s op f -> holds s T l v -> holds s T l' v' -> holds s T l'' v'' ->
    exists r, op v v' v'' = Ok r /\ holds s T (zipw3 f l l' l'') r.
  Proof.
    intros H H1 H2 H3. pose proof (same_len _ _ _ _ _ H1 H2) as EL'. pose proof (same_len _ _ _ _ _ H1 H3) as EL''.
    destruct H1 as (W & L & E), H2 as (W' & L' & E'), H3 as (W'' & L'' & E'').
    destruct (H v v' v'' W W' W'' EL' EL'') as (r & Er & Wr & Lr & EL). exists r. split; [exact Er|].
    repeat split; auto; [rewrite Lr; exact L|]. rewrite EL, E, E', E''. reflexivity.
  Qed.
  Lemma hcast t t' l v : holds (vty_reg A t T) T l v -> exists r, bit_cast A t t' T v = Ok r /\ holds (vty_reg A t' T) T l r.
  Proof.
    intros (W & L & E). destruct (bit_cast_spec A t t' T v HV HT W L) as (r & Er & Wr & Lr & EL). exists r. split; [exact Er|].
    repeat split; auto. rewrite EL by auto. exact E.
  Qed.
  Lemma hof_int l v : holds sI T l v -> exists r, to_float32_i A T v = Ok r /\ holds sF T (map (fun x => f_of_int 32 (sgn 32 x)) l) r.
  Proof.
    intros (W & L & E). destruct (to_float32_int_spec A T HV HT v W L) as (r & Er & Wr & Lr & EL).
    { apply forallb_forall. reflexivity. }
    exists r. split; [exact Er|]. repeat split; auto. rewrite <- E. clear - EL. induction EL as [|x y l l' H _ IH]; [reflexivity|]. cbn [map]. rewrite IH. f_equal. exact H.
  Qed.

End S.
