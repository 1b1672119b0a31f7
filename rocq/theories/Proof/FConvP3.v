(** Conversions between float32 and 32-bit unsigned integers by biasing *)
From Verif Require Import Proof.FloatsP3 Proof.FloatRoundP Proof.FArithP Proof.CastP Proof.FConvP Proof.CmpP.
From Verif Require Export Proof.FConvP2.
From Coq Require Import Lia.

Section S.
  Variable d : bool.
  Notation w := (fw d).
  Notation V := (f_abs_val w).
  Notation one := (2 ^ fulp w).
  Lemma abs_val x : Z.abs (f_val w x) = V (f_mag w x).
  Proof. rewrite <- V_mag. pose proof (abs_val_nonneg d x). unfold f_val. destruct (f_neg w x); lia. Qed.
  (** a representable sum is exact *)
  Lemma f_add_exact x y m : f_finite w x = true -> f_finite w y = true -> 0 <= m < f_inf w -> V m = Z.abs (f_val w x + f_val w y) ->
    f_finite w (f_add w x y) = true /\ f_val w (f_add w x y) = f_val w x + f_val w y.
  Proof.
    intros Hx Hy Hm Em. destruct (finite_mag d x Hx) as (_ & Nx & Ix), (finite_mag d y Hy) as (_ & Ny & Iy).
    unfold f_add, f_unord. rewrite Nx, Ny, Ix, Iy. cbn [orb]. cbv zeta. set (v := f_val w x + f_val w y) in *.
    assert (0 < f_inf w) by (destruct d; reflexivity).
    destruct (Z.eqb_spec v 0) as [E|E].
    - rewrite <- (Z.add_0_r (f_sign w _)). split; [apply finite_sm; lia|].
      destruct (val_sm d (f_neg w x && f_neg w y) 0 ltac:(lia)) as (-> & _ & _). rewrite V_0. destruct (_ && _); lia.
    - rewrite <- Em, round_exact by auto. split; [apply finite_sm; auto|].
      destruct (val_sm d (v <? 0) m ltac:(lia)) as (-> & _ & _). rewrite Em. destruct (Z.ltb_spec v 0); lia.
  Qed.
  Lemma f_opp_finite x : 0 <= x < 2 ^ w -> f_finite w (f_opp w x) = f_finite w x /\ f_nan w (f_opp w x) = f_nan w x.
  Proof. intros H. unfold f_finite, f_nan. rewrite f_mag_opp by auto. auto. Qed.
  Lemma f_sub_exact x y m : 0 <= y < 2 ^ w -> f_finite w x = true -> f_finite w y = true -> 0 <= m < f_inf w -> V m = Z.abs (f_val w x - f_val w y) ->
    f_finite w (f_sub w x y) = true /\ f_val w (f_sub w x y) = f_val w x - f_val w y.
  Proof.
    intros Ry Hx Hy Hm Em. destruct (finite_mag d y Hy) as (_ & Ny & _). unfold f_sub. rewrite Ny.
    destruct (f_opp_finite y Ry) as [HF _]. pose proof (f_val_opp d y Ry) as HO.
    destruct (f_add_exact x (f_opp w y) m) as [H1 H2]; auto; [rewrite HF; auto|rewrite HO; auto|]. rewrite H2, HO. auto.
  Qed.
  (** adding zero to a non-negative number *)
  Lemma f_add_0 a : 0 <= a < f_inf w -> f_add w a 0 = a.
  Proof.
    intros Ha. destruct (finite_sm d false a Ha) as [HF HNn]. cbn [f_sign] in HF, HNn. rewrite Z.add_0_l in HF, HNn.
    destruct (finite_mag d a HF) as (_ & _ & HI). destruct (val_sm d false a ltac:(lia)) as (Hv & Hm & Hn). cbn [f_sign] in *. rewrite Z.add_0_l in *.
    unfold f_add, f_unord. rewrite HNn, HI, Hn. assert (f_nan w 0 = false) as -> by (destruct d; reflexivity).
    assert (f_isinf w 0 = false) as -> by (destruct d; reflexivity). assert (f_val w 0 = 0) as -> by (destruct d; reflexivity).
    cbn [orb andb]. cbv zeta. rewrite Z.add_0_r, Hv. pose proof (val_nonneg d a ltac:(lia)).
    destruct (Z.eqb_spec (V a) 0) as [E|E].
    - cbn [f_sign]. symmetry. apply (val_inj d); [lia|lia|]. rewrite V_0. auto.
    - destruct (Z.ltb_spec (V a) 0); [lia|]. rewrite Z.abs_eq, round_exact by auto. cbn [f_sign]. lia.
  Qed.
End S.

Notation one := (2 ^ fulp 32).
Lemma one_p : 0 < one. Proof. reflexivity. Qed.
Lemma val_p31 : f_val 32 0x4f000000 = 2 ^ 31 * one. Proof. reflexivity. Qed.
Lemma val_p32 : f_val 32 0x4f800000 = 2 ^ 32 * one. Proof. reflexivity. Qed.
Lemma fits_spec w lo hi x : f_fits w lo hi x = true -> f_finite w x = true /\ lo <= f_int w x <= hi.
Proof. unfold f_fits. intros H. apply andb_prop in H as [H H3]. apply andb_prop in H as [H1 H2]. apply Z.leb_le in H2, H3. auto. Qed.
Lemma fits_intro w lo hi x : f_finite w x = true -> lo <= f_int w x <= hi -> f_fits w lo hi x = true.
Proof. intros H1 H2. unfold f_fits. rewrite H1. cbn [andb]. apply andb_true_intro. split; apply Z.leb_le; lia. Qed.
Lemma cvtt_fits x n : f_finite 32 x = true -> f_int 32 x = n -> - 2 ^ 31 <= n <= 2 ^ 31 - 1 -> mm_cvtt_s x = wrap 32 n.
Proof. intros HF HI Hn. unfold mm_cvtt_s, fits_s32. rewrite fits_intro by (rewrite ?HI; auto). rewrite HI. reflexivity. Qed.

(** the float with a bias subtracted *)
Definition unbias (x : Z) : Z := f_sub 32 x (if f_le 32 0x4f000000 x then 0x4f800000 else 0).
Lemma unbias_ok x : 0 <= x < 2 ^ 32 -> fits_u32 x = true -> mm_cvtt_s (unbias x) = f_int 32 x.
Proof.
  intros Hx HU. apply fits_spec in HU as [HF HI]. pose proof one_p as HO.
  destruct (finite_mag false x HF) as (Hm & Nx & Ix). change (fw false) with 32 in *.
  unfold f_int in *. set (v := f_val 32 x) in *.
  assert (Hlo : - one < v).
  { destruct (Z.lt_ge_cases (- one) v); auto. assert (Z.quot v one <= -1); [|lia].
    replace v with (- - v) by lia. rewrite Z.quot_opp_l by lia. rewrite Z.quot_div_nonneg by lia. assert (1 <= - v / one) by (apply Z.div_le_lower_bound; lia). lia. }
  assert (Hhi : v < 2 ^ 32 * one).
  { destruct (Z.lt_ge_cases v (2 ^ 32 * one)); auto. rewrite Z.quot_div_nonneg in HI by lia.
    assert (2 ^ 32 <= v / one) by (apply Z.div_le_lower_bound; lia). lia. }
  unfold unbias. unfold f_le, f_unord. rewrite Nx. change (f_nan 32 0x4f000000) with false. cbn [orb negb andb]. rewrite val_p31. fold v.
  destruct (Z.leb_spec (2 ^ 31 * one) v) as [Hl|Hl].
  - assert (Hv : v = f_abs_val 32 (f_mag 32 x)).
    { pose proof (abs_val false x) as E. change (fw false) with 32 in E. fold v in E. lia. }
    assert (Hj : exists j, 0 <= j /\ v = j * (2 ^ 8 * one)).
    { rewrite Hv. destruct (val_multiple false (f_mag 32 x) (8 + fulp 32)) as [(j & Hj & E)|[H1 H2]]; [change (fw false) with 32; lia|discriminate| |].
      - change (fw false) with 32 in E. exists j. split; [exact Hj|exact E].
      - exfalso. change (fw false) with 32 in H2. rewrite <- Hv in H2.
        replace (2 ^ (fmant 32 + (8 + fulp 32))) with (2 ^ 31 * one) in H2 by reflexivity. lia. }
    destruct Hj as (j & Hj & Ej). change (2 ^ 8) with 256 in Ej. change (2 ^ 31) with 2147483648 in *. change (2 ^ 32) with 4294967296 in *.
    assert (Hj2 : 2 ^ 23 <= j < 2 ^ 24). { change (2 ^ 23) with 8388608. change (2 ^ 24) with 16777216. split; nia. }
    change (2 ^ 23) with 8388608 in Hj2. change (2 ^ 24) with 16777216 in Hj2.
    destruct (int_rep false (16777216 - j) 8) as (m & Hm' & Em); [change (2 ^ (fmant (fw false) + 1)) with 16777216; lia|lia|].
    change (fw false) with 32 in *. change (2 ^ 8) with 256 in Em.
    destruct (f_sub_exact false x 0x4f800000 m) as [S1 S2]; change (fw false) with 32; auto; [split; reflexivity || discriminate| |].
    { rewrite val_p32, Em. fold v. rewrite Ej. change (2 ^ 32) with 4294967296. rewrite Z.abs_neq; nia. }
    change (fw false) with 32 in *. rewrite val_p32 in S2. fold v in S2. change (2 ^ 32) with 4294967296 in S2.
    assert (EQ : Z.quot v one = 256 * j). { rewrite Ej. replace (j * (256 * one)) with (256 * j * one) by ring. apply Z.quot_mul. lia. }
    rewrite EQ. rewrite (cvtt_fits _ (256 * j - 4294967296)); auto.
    + symmetry. unfold wrap. apply (Z.mod_unique _ _ (-1)); change (2 ^ 32) with 4294967296; [left; lia|lia].
    + unfold f_int. rewrite S2, Ej. replace (j * (256 * one) - 4294967296 * one) with ((256 * j - 4294967296) * one) by ring. apply Z.quot_mul. lia.
    + change (2 ^ 31) with 2147483648. lia.
  - destruct (f_sub_exact false x 0 (f_mag 32 x)) as [S1 S2]; change (fw false) with 32; auto; [split; reflexivity || discriminate| |].
    { change (f_val 32 0) with 0. rewrite Z.sub_0_r. symmetry. apply (abs_val false). }
    change (fw false) with 32 in *. change (f_val 32 0) with 0 in S2. rewrite Z.sub_0_r in S2.
    assert (HQ : Z.quot v one < 2 ^ 31).
    { destruct (Z.le_gt_cases 0 v). - rewrite Z.quot_div_nonneg by lia. apply Z.div_lt_upper_bound; lia.
      - assert (Z.quot v one <= 0); [|change (2^31) with 2147483648; lia]. replace v with (- - v) by lia. rewrite Z.quot_opp_l by lia. rewrite Z.quot_div_nonneg by lia.
        assert (0 <= - v / one) by (apply Z.div_pos; lia). lia. }
    rewrite (cvtt_fits _ (Z.quot v one)); auto.
    + apply wrap_small. lia.
    + unfold f_int. rewrite S2. reflexivity.
    + change (2 ^ 31) with 2147483648 in *. lia.
Qed.

(** the biased sum *)
Definition bias (x : Z) : Z := f_add 32 (f_of_int 32 (sgn 32 x)) (if sgn 32 x <? 0 then 0x4f800000 else 0).
Ltac pw := change (2 ^ 31) with 2147483648 in *; change (2 ^ 32) with 4294967296 in *; change (2 ^ 24) with 16777216 in *;
  change (2 ^ 7) with 128 in *; change (2 ^ 8) with 256 in *; change (2 ^ (fmant 32 + 1)) with 16777216 in *; change (2 ^ 0) with 1 in *.
(** rounding to nearest is at least as near as any representable number *)
Lemma near_rep n r mu t : nearest_mag 32 n 1 r -> 0 <= mu <= 2 ^ 24 -> 0 <= t <= 64 ->
  Z.abs (f_abs_val 32 r - n) <= Z.abs (mu * 2 ^ t * one - n).
Proof.
  intros [Hr Hn] Hmu Ht. destruct (int_rep false mu t Hmu Ht) as (m & Hm & E). change (fw false) with 32 in *.
  destruct (Hn m ltac:(lia)) as [H _]. rewrite E in H. rewrite !Z.mul_1_r in H. exact H.
Qed.
Lemma near_fin n r : nearest_mag 32 n 1 r -> 0 <= n <= 2 ^ 33 * one -> 0 <= r < f_inf 32.
Proof.
  intros Hn Hb. pose proof (near_rep n r 0 0 Hn ltac:(lia) ltac:(lia)) as H. destruct Hn as [Hr _].
  split; [lia|]. destruct (Z.eq_dec r (f_inf 32)) as [->|]; [|lia]. exfalso.
  change (f_abs_val 32 (f_inf 32)) with (2 ^ 128 * one) in H. replace (0 * 2 ^ 0 * one) with 0 in H by reflexivity. rewrite Z.sub_0_l, Z.abs_opp in H.
  assert (2 ^ 33 * one < 2 ^ 127 * one) by reflexivity. assert (2 ^ 128 * one = 2 * (2 ^ 127 * one)) by reflexivity. lia.
Qed.
Lemma of_int_parts n : Z.abs n <= 2 ^ 32 -> let r := f_mag 32 (f_of_int 32 n) in
  f_finite 32 (f_of_int 32 n) = true /\ 0 <= r < f_inf 32 /\ nearest_mag 32 (Z.abs n * one) 1 r /\
  f_val 32 (f_of_int 32 n) = (if n <? 0 then - f_abs_val 32 r else f_abs_val 32 r) /\ f_of_int 32 n = f_sign 32 (n <? 0) + r.
Proof.
  intros Hn. cbv zeta. destruct (of_int_nearest false n) as [HN Hs]. change (fw false) with 32 in *. pose proof one_p.
  assert (HF : 0 <= f_mag 32 (f_of_int 32 n) < f_inf 32). { apply (near_fin _ _ HN). assert (2 ^ 33 = 2 * 2 ^ 32) by reflexivity. pw. nia. }
  split. { unfold f_finite. apply Z.ltb_lt. lia. } split; auto. split; auto. split.
  - unfold f_val. rewrite Hs, (V_mag false). reflexivity.
  - pose proof (f_split false (f_of_int 32 n) (of_int_ran false n)) as E. change (fw false) with 32 in E. rewrite Hs in E. exact E.
Qed.
Lemma bias_small x : 0 <= x < 2 ^ 31 -> bias x = f_of_int 32 x.
Proof.
  intros Hx. unfold bias. assert (sgn 32 x = x) as -> by (apply sgn_id; change (2 ^ (32 - 1)) with 2147483648; pw; lia).
  destruct (Z.ltb_spec x 0); [lia|]. apply (f_add_0 false). change (fw false) with 32.
  destruct (of_int_parts x) as (_ & Hr & _ & _ & E); [pw; lia|]. rewrite E. destruct (Z.ltb_spec x 0); [lia|]. cbn [f_sign]. lia.
Qed.
Lemma sgn_big x : 2 ^ 31 <= x < 2 ^ 32 -> sgn 32 x = x - 2 ^ 32.
Proof.
  intros Hx. rewrite <- (sgn_wrap 32 x). replace (wrap 32 x) with (wrap 32 (x - 2 ^ 32)).
  - rewrite sgn_wrap. apply sgn_id; change (2 ^ (32 - 1)) with 2147483648; pw; lia.
  - unfold wrap. replace (x - 2 ^ 32) with (x + (-1) * 2 ^ 32) by lia. apply Z.mod_add. discriminate.
Qed.
Lemma bias_exact x : 2 ^ 31 <= x < 2 ^ 32 -> x mod 128 = 0 \/ 2 ^ 32 - 2 ^ 24 <= x -> bias x = f_of_int 32 x.
Proof.
  intros Hx He. unfold bias. rewrite sgn_big by auto. pose proof one_p. pw. destruct (Z.ltb_spec (x - 4294967296) 0); [|lia].
  assert (HX : f_finite 32 (f_of_int 32 (x - 4294967296)) = true /\ f_val 32 (f_of_int 32 (x - 4294967296)) = (x - 4294967296) * one).
  { destruct He as [He|He].
    - apply (of_int_exact false _ (33554432 - x / 128) 7); pw; pose proof (Z.div_mod x 128 ltac:(lia)); change (fw false) with 32; pw; lia.
    - apply (of_int_exact false _ (4294967296 - x) 0); change (fw false) with 32; pw; lia. }
  destruct HX as [HF Hv]. destruct (finite_mag false _ HF) as (_ & HN & HI). change (fw false) with 32 in *.
  unfold f_add, f_unord. rewrite HN, HI. change (f_nan 32 0x4f800000) with false. change (f_isinf 32 0x4f800000) with false. cbn [orb]. cbv zeta.
  rewrite Hv, val_p32. pw. replace ((x - 4294967296) * one + 4294967296 * one) with (x * one) by ring.
  destruct (Z.eqb_spec (x * one) 0); [nia|]. destruct (Z.ltb_spec (x * one) 0); [nia|].
  unfold f_of_int. destruct (Z.eqb_spec x 0); [lia|]. destruct (Z.ltb_spec x 0); [lia|]. rewrite !Z.abs_eq by nia. reflexivity.
Qed.
(** in general the result is less than one unit in the last place away *)
Lemma near_grid n k : 0 < k -> exists j, Z.abs (2 * k * j - n) <= k.
Proof.
  intros Hk. pose proof (Z.div_mod n (2 * k) ltac:(lia)) as E. pose proof (Z.mod_pos_bound n (2 * k) ltac:(lia)) as B.
  destruct (Z.le_gt_cases (n mod (2 * k)) k); [exists (n / (2 * k))|exists (n / (2 * k) + 1)]; nia.
Qed.
Lemma bias_err x : 2 ^ 31 <= x < 2 ^ 32 -> f_finite 32 (bias x) = true /\ Z.abs (f_val 32 (bias x) - x * one) <= 192 * one.
Proof.
  intros Hx. unfold bias. rewrite sgn_big by auto. pose proof one_p as HO. pw. destruct (Z.ltb_spec (x - 4294967296) 0) as [Hneg|]; [|lia].
  destruct (of_int_parts (x - 4294967296)) as (HF & Hr & HN & Hv & _); [pw; lia|].
  destruct (Z.ltb_spec (x - 4294967296) 0) as [_|]; [|lia]. rewrite Z.abs_neq in HN by lia.
  set (a := f_abs_val 32 (f_mag 32 (f_of_int 32 (x - 4294967296)))) in *.
  assert (Ha : Z.abs (a - (4294967296 - x) * one) <= 64 * one).
  { destruct (near_grid (4294967296 - x) 64 ltac:(lia)) as (j & Hj).
    pose proof (near_rep _ _ j 7 HN ltac:(pw; lia) ltac:(lia)) as H. fold a in H. pw.
    replace (- (x - 4294967296) * one) with ((4294967296 - x) * one) in H by ring.
    replace (j * 128 * one - (4294967296 - x) * one) with ((2 * 64 * j - (4294967296 - x)) * one) in H by ring.
    rewrite Z.abs_mul, (Z.abs_eq one) in H by lia. nia. }
  destruct (finite_mag false _ HF) as (_ & NN & NI). change (fw false) with 32 in *.
  unfold f_add, f_unord. rewrite NN, NI. change (f_nan 32 0x4f800000) with false. change (f_isinf 32 0x4f800000) with false. cbn [orb]. cbv zeta.
  rewrite Hv, val_p32. pw. set (v := - a + 4294967296 * one).
  assert (Hvx : Z.abs (v - x * one) <= 64 * one) by (unfold v; lia).
  assert (Hv0 : 0 < v) by nia.
  destruct (Z.eqb_spec v 0); [lia|]. destruct (Z.ltb_spec v 0); [lia|]. rewrite Z.abs_eq by lia.
  pose proof (f_round_nearest false v 0 ltac:(lia) ltac:(lia)) as HR. change (fw false) with 32 in HR. change (2 ^ 0) with 1 in HR.
  assert (Hfin : 0 <= f_round 32 v 0 < f_inf 32). { apply (near_fin _ _ HR). change (2 ^ 33) with 8589934592. nia. }
  split; [apply (finite_sm false); auto|]. destruct (val_sm false false (f_round 32 v 0)) as (E & _ & _); [change (fw false) with 32; lia|].
  change (fw false) with 32 in E. rewrite E. clear E.
  destruct (near_grid v (128 * one) ltac:(lia)) as (j & Hj).
  assert (Hj2 : 0 <= j <= 16777216).
  { assert (v <= 4294967296 * one). { unfold v. pose proof (val_nonneg false (f_mag 32 (f_of_int 32 (x - 4294967296)))) as HA. change (fw false) with 32 in HA.
      specialize (HA ltac:(lia)). fold a in HA. lia. }
    split; [destruct (Z.lt_ge_cases j 0); [exfalso; nia|auto]|destruct (Z.lt_ge_cases 16777216 j); [exfalso; nia|auto]]. }
  pose proof (near_rep _ _ j 8 HR ltac:(pw; lia) ltac:(lia)) as HH. pw.
  replace (2 * (128 * one) * j - v) with (j * 256 * one - v) in Hj by ring. lia.
Qed.

Section B.
  Variables (A : arch) (s : rsz).
  Hypotheses (HV : valid_arch A = true) (HA : avail_flt A s = true) (HX : use_sse2 A = true).
  Notation R := (rbits s).
  Lemma biased_sub a : reg R a -> exists m t, f_cmp_ge A false s a (fconst false s 0x4f000000) = Ok m /\
    f_bit_and_vm A false s (fconst false s 0x4f800000) m = Ok t /\ i_fsub A false s a t = Ok (v1 32 R unbias a).
  Proof.
    intros Ha. pose proof (ftz_x86 A false HV HX) as HZ.
    pose proof (fcmp_d_ok A false s HV HA (fun w x y => f_le w y x) (fun w x y => f_le w y x) a (fconst false s 0x4f000000) (fun _ _ => eq_refl)) as HC.
    apply Rok_ex in HC. destruct HC as (m & Em & Hm). rewrite HZ in Hm. cbn [fz] in Hm. change (fw false) with 32 in *.
    exists m. eexists. split; [exact Em|]. split; [apply (f_bit_and_vm_ok A false s HV HA _ m _ (fconst_reg false s _) Hm)|].
    unfold i_fsub. rewrite (farith_ok A false s HV HA). apply f_equal. change (fw false) with 32. rewrite HZ. cbn [fz].
    apply eq_v1; [apply w32|apply v2_reg, w32|]. intros i Hi. rewrite lane_v2, lane_pack by (auto using w32).
    unfold unbias, fconst. change (fw false) with 32. rewrite !lane_splat by (auto using w32). f_equal.
    destruct (f_le 32 _ _); reflexivity.
  Qed.
  Lemma biased_add a : avail_int A 32 s = true -> reg R a -> to_float32_biased A s a = Ok (v1 32 R bias a).
  Proof.
    intros HI Ha. pose proof (ftz_x86 A false HV HX) as HZ. unfold to_float32_biased.
    pose proof (i_cmp_lt_ok A HV true W32 s a 0 HI Ha) as HC. specialize (HC ltac:(split; [lia|apply pow2_pos; destruct s; discriminate])).
    specialize (HC ltac:(reflexivity)). apply Rok_ex in HC. destruct HC as (m & Em & Hm). rewrite Em. cbn [bind].
    assert (HK : mk_int A W32 s = mk_flt A false s).
    { destruct s; cbn [mk_int mk_flt]; auto. destruct (use_avx512vl A); auto. unfold use_neon_no_flt_sp.
      assert (use_null A = false /\ use_neon A = false) as [-> ->]; [|reflexivity]. fam HV; auto; fcontra. }
    assert (Hf : frel A false s (fun i => lt_of true W32 (lane 32 i a) (lane 32 i 0)) m).
    { unfold frel, mrelk. unfold mrel in Hm. rewrite HK in Hm. exact Hm. }
    rewrite (f_bit_and_vm_ok A false s HV HA _ m _ (fconst_reg false s _) Hf). cbn [bind].
    unfold i_fadd. rewrite (farith_ok A false s HV HA). apply f_equal. change (fw false) with 32. rewrite HZ. cbn [fz].
    apply eq_v1; [apply w32|apply v2_reg, w32|]. intros i Hi. rewrite lane_v2, lane_v1, lane_pack by (auto using w32).
    unfold bias, fconst, lt_of. change (wb W32) with 32. change (fw false) with 32. rewrite lane_splat by (auto using w32). rewrite lane_of_zero.
    change (sgn 32 0) with 0. f_equal. rewrite (wrap_small 32 (f_of_int 32 _)) by apply (of_int_ran false).
    destruct (sgn 32 _ <? 0); reflexivity.
  Qed.
End B.
