(** div_p is long division, bit by bit *)
From Verif Require Import Proof.CppLemmas Proof.MakeConstP Proof.BitwiseP Proof.MaskP Proof.ArithP Proof.ShiftP Proof.CmpP Spec.DivP.
From Verif Require Export Model.DivP.
From Coq Require Import Lia.

(** the two bytes of a 16-bit lane *)
Lemma lane16_bytes i r : 0 <= i -> lane 16 i r = lane 8 (2 * i) r + 256 * lane 8 (2 * i + 1) r.
Proof.
  intros Hi. replace (lane 8 (2 * i) r) with (lane 8 0 (lane 16 i r)) by (change 16 with (8 * 2); rewrite lane_lane by lia; apply f_equal2; lia).
  replace (lane 8 (2 * i + 1) r) with (lane 8 1 (lane 16 i r)) by (change 16 with (8 * 2); rewrite lane_lane by lia; apply f_equal2; lia).
  pose proof (lane_range 16 i r ltac:(lia)) as H. set (x := lane 16 i r) in *. clearbody x. change (2 ^ 16) with 65536 in H.
  Local Transparent lane. unfold lane. Local Opaque lane. rewrite !Z.shiftr_div_pow2 by lia. change (2 ^ (8 * 0)) with 1. change (2 ^ (8 * 1)) with 256. change (2 ^ 8) with 256. rewrite Z.div_1_r.
  rewrite (Z.mod_small (x / 256)); [pose proof (Z.div_mod x 256); lia|]. split; [apply Z.div_pos; lia|apply Z.div_lt_upper_bound; lia].
Qed.
Lemma bytes_of16 i r l h : 0 <= i -> 0 <= l < 256 -> 0 <= h < 256 -> lane 16 i r = l + 256 * h ->
  lane 8 (2 * i) r = l /\ lane 8 (2 * i + 1) r = h.
Proof.
  intros Hi Hl Hh E. rewrite lane16_bytes in E by auto. pose proof (lane_range 8 (2 * i) r ltac:(lia)). pose proof (lane_range 8 (2 * i + 1) r ltac:(lia)).
  change (2 ^ 8) with 256 in *. lia.
Qed.
Section L.
  Variables (w : ew).
  Hypothesis Hw : w = W8 \/ w = W16.
  Local Notation W := (wb w).
  Lemma wokW : wok W 128 = true. Proof. destruct Hw as [-> | ->]; reflexivity. Qed.
  Lemma via16 (f g : Z -> Z) a :
    (w = W16 -> forall i, 0 <= i < 8 -> wrap 16 (f (lane 16 i a)) = g (lane 16 i a)) ->
    (w = W8 -> forall i, 0 <= i < 8 -> wrap 16 (f (lane 8 (2 * i) a + 256 * lane 8 (2 * i + 1) a)) = g (lane 8 (2 * i) a) + 256 * g (lane 8 (2 * i + 1) a) /\
       0 <= g (lane 8 (2 * i) a) < 256 /\ 0 <= g (lane 8 (2 * i + 1) a) < 256) ->
    forall j, 0 <= j < 128 / W -> lane W j (v1 16 128 f a) = g (lane W j a).
  Proof.
    intros H16 H8 j Hj. destruct Hw as [-> | ->]; cbn [wb] in *.
    - change (128 / 8) with 16 in Hj. assert (Hi : 0 <= j / 2 < 8) by (split; [apply Z.div_pos; lia|apply Z.div_lt_upper_bound; lia]).
      destruct (H8 eq_refl (j / 2) Hi) as (E & Hl & Hh). rewrite <- lane16_bytes in E by lia.
      destruct (bytes_of16 (j / 2) (v1 16 128 f a) _ _ ltac:(lia) Hl Hh) as [E0 E1]; [rewrite lane_v1 by (reflexivity || (change (128 / 16) with 8; lia)); exact E|].
      pose proof (Z.div_mod j 2 ltac:(lia)). pose proof (Z.mod_pos_bound j 2 ltac:(lia)).
      assert (j = 2 * (j / 2) \/ j = 2 * (j / 2) + 1) as [Ej|Ej] by lia; rewrite Ej; assumption.
    - rewrite lane_v1 by (reflexivity || exact Hj). apply H16; auto.
  Qed.
  Lemma l8 a j : 0 <= lane 8 j a < 256. Proof. apply (lane_range 8 j a). lia. Qed.
  Lemma l16 a j : 0 <= lane 16 j a < 65536. Proof. apply (lane_range 16 j a). lia. Qed.
  Lemma sh_l a : (forall j, 0 <= j < 128 / W -> lane W j a < 2 ^ (W - 1)) ->
    forall j, 0 <= j < 128 / W -> lane W j (shl_v 16 128 1 a) = 2 * lane W j a.
  Proof.
    intros H. unfold shl_v. apply (via16 (fun x => Z.shiftl x 1) (fun x => 2 * x)); intros Ew i Hi; rewrite Ew in H; cbn [wb] in H.
    - rewrite Z.shiftl_mul_pow2 by lia. change (2 ^ 1) with 2. specialize (H i Hi). change (2 ^ (16 - 1)) with 32768 in H. pose proof (l16 a i). rewrite wrap_small; [lia|change (2 ^ 16) with 65536; lia].
    - rewrite Z.shiftl_mul_pow2 by lia. change (2 ^ 1) with 2. change (2 ^ (8 - 1)) with 128 in H. change (128 / 8) with 16 in H. pose proof (H (2 * i) ltac:(lia)). pose proof (H (2 * i + 1) ltac:(lia)).
      pose proof (l8 a (2 * i)). pose proof (l8 a (2 * i + 1)). rewrite wrap_small; [lia|change (2 ^ 16) with 65536; lia].
  Qed.
  Lemma sh_r a b : 0 <= b < W -> (forall j, 0 <= j < 128 / W -> lane W j a mod 2 ^ b = 0) ->
    forall j, 0 <= j < 128 / W -> lane W j (shr_v false 16 128 b a) = lane W j a / 2 ^ b.
  Proof.
    intros Hb H. unfold shr_v. assert (HP : 0 < 2 ^ b) by (apply Z.pow_pos_nonneg; lia).
    apply (via16 (fun x => Z.shiftr x b) (fun x => x / 2 ^ b)); intros Ew i Hi; rewrite Ew in H; cbn [wb] in H; rewrite Z.shiftr_div_pow2 by lia.
    - pose proof (l16 a i). apply wrap_small. split; [apply Z.div_pos; lia|]. apply Z.div_lt_upper_bound; [lia|]. change (2 ^ 16) with 65536. nia.
    - change (128 / 8) with 16 in H. pose proof (H (2 * i) ltac:(lia)) as M0. pose proof (H (2 * i + 1) ltac:(lia)) as M1. pose proof (l8 a (2 * i)) as R0. pose proof (l8 a (2 * i + 1)) as R1.
      set (x := lane 8 (2 * i) a) in *. set (y := lane 8 (2 * i + 1) a) in *. clearbody x y.
      pose proof (Z.div_mod x (2 ^ b) ltac:(lia)) as E0. pose proof (Z.div_mod y (2 ^ b) ltac:(lia)) as E1. rewrite M0 in E0. rewrite M1 in E1.
      set (u := x / 2 ^ b) in *. set (v := y / 2 ^ b) in *. clearbody u v. set (k := 2 ^ b) in *. clearbody k. 
      replace (x + 256 * y) with ((u + 256 * v) * k) by nia. rewrite Z.div_mul by lia. assert (0 <= u < 256) by nia. assert (0 <= v < 256) by nia.
      rewrite wrap_small; [lia|change (2 ^ 16) with 65536; lia].
  Qed.
End L.

(** one step on numbers *)
Section N.
  Variables (n D P : Z).
  Hypotheses (HP : 0 <= P) (HD : 0 <= D).
  Local Notation N := (n mod 2 ^ P).
  Definition inv (k rho q : Z) : Prop := exists t, q = t * 2 ^ k /\ 0 <= t /\ N / 2 ^ k = t * D + rho /\ 0 <= rho /\ (0 < D -> rho < D) /\ (D = 0 -> t = 2 ^ (P - k) - 1).
  Definition bit_at (b : Z) : Z := Z.b2z (Z.testbit n b).
  Definition nr (b rho : Z) : Z := 2 * rho + bit_at b.
  Definition rho' (b rho : Z) : Z := if nr b rho <? D then nr b rho else nr b rho - D.
  Definition q' (b rho q : Z) : Z := if nr b rho <? D then q else q + 2 ^ b.
  Lemma N_ran : 0 <= N < 2 ^ P. Proof. apply Z.mod_pos_bound. apply Z.pow_pos_nonneg; lia. Qed.
  Lemma inv_start : inv P 0 0.
  Proof.
    exists 0. rewrite Z.div_small by apply N_ran. rewrite Z.sub_diag. split; [lia|]. split; [lia|]. split; [lia|]. split; [lia|]. split; [lia|]. intros _. reflexivity.
  Qed.
  Lemma inv_bound k rho q : 0 <= k <= P -> inv k rho q -> 0 <= rho < 2 ^ (P - k) /\ 0 <= q < 2 ^ P.
  Proof.
    intros Hk (t & -> & Ht & E & Hr & Hl & Hz). pose proof N_ran as HN. assert (0 < 2 ^ k) by (apply Z.pow_pos_nonneg; lia).
    assert (EP : 2 ^ P = 2 ^ (P - k) * 2 ^ k) by (rewrite <- Z.pow_add_r by lia; f_equal; lia).
    assert (HB : N / 2 ^ k < 2 ^ (P - k)) by (apply Z.div_lt_upper_bound; [lia|]; rewrite Z.mul_comm, <- EP; lia).
    assert (0 <= t * D) by nia. split; [lia|]. split; [nia|]. rewrite EP. apply Zmult_lt_compat_r; [lia|].
    destruct (Z.eq_dec D 0) as [E0|E0]; [rewrite (Hz E0); lia|]. nia.
  Qed.
  Lemma bit_split b : 0 <= b < P -> N / 2 ^ b = 2 * (N / 2 ^ (b + 1)) + bit_at b.
  Proof.
    intros Hb. rewrite Z.pow_add_r, <- Z.div_div by (try (apply Z.pow_nonzero; lia); try (apply Z.pow_pos_nonneg; lia); lia). change (2 ^ 1) with 2.
    assert (E : bit_at b = (N / 2 ^ b) mod 2).
    { unfold bit_at. rewrite <- Z.testbit_spec' by lia. rewrite Z.mod_pow2_bits_low by lia. reflexivity. }
    rewrite E. apply Z.div_mod. lia.
  Qed.
  Lemma inv_step b rho q : 0 <= b < P -> inv (b + 1) rho q -> inv b (rho' b rho) (q' b rho q) /\ 0 <= nr b rho < 2 ^ (P - b).
  Proof.
    intros Hb (t & -> & Ht & E & Hr & Hl & Hz). pose proof N_ran as HN. pose proof (bit_split b Hb) as ES. assert (HB : 0 <= bit_at b <= 1) by (unfold bit_at; destruct (Z.testbit n b); cbn; lia).
    assert (0 < 2 ^ b) by (apply Z.pow_pos_nonneg; lia). assert (E2 : 2 ^ (b + 1) = 2 * 2 ^ b) by (rewrite Z.pow_add_r by lia; change (2 ^ 1) with 2; lia).
    assert (EP : 2 ^ P = 2 ^ (P - b) * 2 ^ b) by (rewrite <- Z.pow_add_r by lia; f_equal; lia).
    assert (EPb : 2 ^ (P - b) = 2 * 2 ^ (P - (b + 1))) by (replace (P - b) with (1 + (P - (b + 1))) by lia; rewrite Z.pow_add_r by lia; reflexivity).
    assert (HBd : N / 2 ^ b < 2 ^ (P - b)) by (apply Z.div_lt_upper_bound; [lia|]; rewrite Z.mul_comm, <- EP; lia).
    split.
    - unfold inv, rho', q', nr. destruct (Z.ltb_spec (2 * rho + bit_at b) D) as [L|L].
      + exists (2 * t). rewrite E2. split; [ring|]. split; [lia|]. split; [rewrite ES, E; ring|]. split; [lia|]. split; [lia|]. intros E0. lia.
      + exists (2 * t + 1). rewrite E2. split; [ring|]. split; [lia|]. split; [rewrite ES, E; ring|]. split; [lia|]. split; [intros; specialize (Hl ltac:(lia)); lia|]. intros E0. rewrite (Hz E0), EPb. ring.
    - unfold nr. split; [lia|]. rewrite E in ES. assert (0 <= t * D) by nia. lia.
  Qed.
  Lemma inv_end rho q : inv 0 rho q -> q = if D =? 0 then 2 ^ P - 1 else N / D.
  Proof.
    intros (t & -> & Ht & E & Hr & Hl & Hz). change (2 ^ 0) with 1 in *. rewrite Z.div_1_r in E. rewrite Z.mul_1_r.
    destruct (Z.eqb_spec D 0) as [E0|E0]; [rewrite (Hz E0), Z.sub_0_r; reflexivity|]. apply (Z.div_unique N D t rho); [left; specialize (Hl ltac:(lia)); lia|lia].
  Qed.
End N.
Lemma lor_low x c : 0 <= x -> Z.lor (2 * x) (Z.b2z c) = 2 * x + Z.b2z c.
Proof. intros Hx. destruct c; cbn [Z.b2z]; [|rewrite Z.lor_0_r; lia]. destruct x as [|p|p]; [reflexivity|reflexivity|lia]. Qed.
Lemma lor_pow t b : 0 <= t -> 0 <= b -> Z.lor (t * 2 ^ (b + 1)) (2 ^ b) = t * 2 ^ (b + 1) + 2 ^ b.
Proof.
  intros Ht Hb. rewrite Z.pow_add_r by lia. change (2 ^ 1) with 2. replace (t * (2 ^ b * 2)) with (2 * t * 2 ^ b) by ring.
  rewrite <- (Z.mul_1_l (2 ^ b)) at 2. rewrite <- !Z.shiftl_mul_pow2, <- Z.shiftl_lor by lia. change 1 with (Z.b2z true) at 1. rewrite lor_low, !Z.shiftl_mul_pow2 by lia. cbn [Z.b2z]. ring.
Qed.
Lemma land_pow n b : 0 <= b -> Z.land n (2 ^ b) = Z.b2z (Z.testbit n b) * 2 ^ b.
Proof.
  intros Hb. apply Z.bits_inj'. intros i Hi. rewrite Z.land_spec, Z.pow2_bits_eqb by auto. rewrite <- Z.shiftl_mul_pow2, Z.shiftl_spec by lia.
  destruct (Z.eqb_spec b i) as [<-|Hn].
  - rewrite Z.sub_diag, andb_true_r. destruct (Z.testbit n b); reflexivity.
  - rewrite andb_false_r. destruct (Z.testbit n b); cbn [Z.b2z]; [|rewrite Z.bits_0; reflexivity]. destruct (Z.ltb_spec (i - b) 0); [rewrite Z.testbit_neg_r by lia; reflexivity|].
    change 1 with (2 ^ 0). rewrite Z.pow2_bits_eqb by lia. destruct (Z.eqb_spec 0 (i - b)); [lia|reflexivity].
Qed.

Section R.
  Variables (A : arch) (w : ew) (num den : Z) (P : nat).
  Hypotheses (HV : valid_arch A = true) (Hw : w = W8 \/ w = W16) (Hn : reg 128 num) (Hd : reg 128 den) (HP : Z.of_nat P <= wb w).
  Local Notation W := (wb w).
  Local Notation cnt := (128 / W).
  Lemma avw v : v = W8 \/ v = W16 -> avail_int A (wb v) R128 = true. Proof. intros [-> | ->]; reflexivity. Qed.
  Lemma wpos : 0 < W. Proof. destruct Hw as [-> | ->]; reflexivity. Qed.
  Definition st_ok (k : Z) (st : Z * Z * Z) : Prop :=
    let '(r, q, bm) := st in reg 128 r /\ reg 128 q /\ (0 < k -> bm = splat W 128 (2 ^ (k - 1))) /\
    forall j, 0 <= j < cnt -> inv (lane W j num) (lane W j den) (Z.of_nat P) k (lane W j r) (lane W j q).
  Lemma pow_le_w b : 0 <= b <= W -> 0 < 2 ^ b <= 2 ^ W.
  Proof. intros Hb. split; [apply Z.pow_pos_nonneg; lia|apply Z.pow_le_mono_r; lia]. Qed.
  Lemma step_ok b st : 0 <= b < Z.of_nat P -> st_ok (b + 1) st -> exists st', div_p_step A w num den b st = Ok st' /\ st_ok b st'.
  Proof.
    destruct st as [[r q] bm]. intros Hb (Hr & Hq & Hbm & HI). specialize (Hbm ltac:(lia)). replace (b + 1 - 1) with b in Hbm by lia. subst bm.
    pose proof wpos as HW. pose proof (wokW w Hw) as HK. assert (AV : avail_int A W R128 = true) by (apply avw; auto). assert (AV16 : avail_int A (wb W16) R128 = true) by (apply avw; auto).
    assert (HB : reg 128 (splat W 128 (2 ^ b))) by (apply splat_reg; auto).
    pose proof (pow_le_w b ltac:(lia)) as Hpb. assert (Hpb2 : 2 ^ b < 2 ^ W) by (apply Z.pow_lt_mono_r; lia).
    assert (ND : forall j, 0 <= lane W j den) by (intros j; apply lane_range; lia).
    assert (LS : forall j, 0 <= j < cnt -> lane W j (splat W 128 (2 ^ b)) = 2 ^ b) by (intros j Hj; rewrite lane_splat by auto; apply wrap_small; lia).
    unfold div_p_step. rewrite i_shift_l_t_ok by (auto; cbn [wb]; lia). cbn [bind rbits]. change (wb W16) with 16.
    set (r1 := shl_v 16 128 1 r). assert (Hr1 : reg 128 r1) by (apply v1_reg; reflexivity).
    assert (E1 : forall j, 0 <= j < cnt -> lane W j r1 = 2 * lane W j r).
    { apply sh_l; auto. intros j Hj. destruct (inv_bound _ _ _ (Nat2Z.is_nonneg P) (ND j) (b + 1) _ _ ltac:(lia) (HI j Hj)) as [HR _]. 
      assert (2 ^ (Z.of_nat P - (b + 1)) <= 2 ^ (W - 1)) by (apply Z.pow_le_mono_r; lia). lia. }
    rewrite i_bit_and_ok by auto. cbn [bind]. set (nb := Z.land num (splat W 128 (2 ^ b))). assert (Hnb : reg 128 nb) by (apply land_reg; auto; lia).
    assert (En : forall j, 0 <= j < cnt -> lane W j nb = bit_at (lane W j num) b * 2 ^ b) by (intros j Hj; unfold nb; rewrite lane_land, LS, land_pow by lia; reflexivity).
    rewrite i_shift_r_ok by (auto; cbn [wb]; destruct Hw as [-> | ->]; cbn [wb] in *; lia). cbn [bind rbits]. change (wb W16) with 16.
    set (nb2 := shr_v false 16 128 b nb). assert (Hnb2 : reg 128 nb2) by (apply v1_reg; reflexivity).
    assert (E2 : forall j, 0 <= j < cnt -> lane W j nb2 = bit_at (lane W j num) b).
    { intros j Hj. unfold nb2. rewrite sh_r by (auto; try lia; intros k Hk; rewrite En by auto; apply Z.mod_mul; lia). rewrite En by auto. apply Z.div_mul. lia. }
    rewrite i_bit_or_ok by auto. cbn [bind]. set (r2 := Z.lor r1 nb2). assert (Hr2 : reg 128 r2) by (apply lor_reg; auto; lia).
    assert (E3 : forall j, 0 <= j < cnt -> lane W j r2 = nr (lane W j num) b (lane W j r)).
    { intros j Hj. unfold r2. rewrite lane_lor, E1, E2 by lia. apply lor_low. apply lane_range. lia. }
    assert (HC := i_cmp_lt_ok A HV false w R128 r2 den AV Hr2 Hd ltac:(destruct Hw as [-> | ->]; reflexivity)).
    apply Rok_ex in HC as (m & -> & Hm). cbn [bind]. rewrite (unmask_ok A w R128 m _ AV Hm). cbn [bind rbits].
    set (lt := fun i => lt_of false w (lane W i r2) (lane W i den)). fold lt. set (cmp := pack W 128 (fun i => tf W (lt i))). assert (Hcmp : reg 128 cmp) by (apply pack_reg; auto).
    assert (E4 : forall j, 0 <= j < cnt -> lane W j cmp = if nr (lane W j num) b (lane W j r) <? lane W j den then ones W else 0).
    { intros j Hj. unfold cmp. rewrite lane_pack, wrap_tf by auto. unfold lt, lt_of. rewrite E3 by auto. reflexivity. }
    rewrite !i_bit_andnot_ok by auto. cbn [bind]. set (csub := Z.ldiff den cmp). set (cbit := Z.ldiff (splat W 128 (2 ^ b)) cmp).
    assert (Hcs : reg 128 csub) by (apply ldiff_reg; auto; lia). assert (Hcb : reg 128 cbit) by (apply ldiff_reg; auto; lia).
    assert (LD : forall x, 0 <= x < 2 ^ W -> Z.ldiff x (ones W) = 0).
    { intros x Hx. unfold ones. replace (2 ^ W - 1) with (Z.ones W) by (rewrite Z.ones_equiv; lia). destruct (Z.eq_dec x 0) as [->|]; [apply Z.ldiff_0_l|].
      apply Z.ldiff_ones_r_low; [lia|]. apply Z.log2_lt_pow2; lia. }
    assert (E5 : forall j, 0 <= j < cnt -> lane W j csub = if nr (lane W j num) b (lane W j r) <? lane W j den then 0 else lane W j den).
    { intros j Hj. unfold csub. rewrite lane_ldiff, E4 by lia. destruct (_ <? _); [apply LD, lane_range; lia|apply Z.ldiff_0_r]. }
    assert (E6 : forall j, 0 <= j < cnt -> lane W j cbit = if nr (lane W j num) b (lane W j r) <? lane W j den then 0 else 2 ^ b).
    { intros j Hj. unfold cbit. rewrite lane_ldiff, E4, LS by lia. destruct (_ <? _); [apply LD; lia|apply Z.ldiff_0_r]. }
    rewrite i_sub_ok by auto. cbn [bind rbits]. rewrite i_bit_or_ok by auto. cbn [bind]. 
    rewrite i_shift_r_t_ok by (auto; cbn [wb]; lia). cbn [bind rbits]. change (wb W16) with 16. eexists. split; [reflexivity|].
    split; [apply v2_reg; auto|]. split; [apply lor_reg; auto; lia|]. split.
    - intros Hb0. assert (Hb1 : 2 ^ b = 2 * 2 ^ (b - 1)) by (replace b with (1 + (b - 1)) at 1 by lia; rewrite Z.pow_add_r by lia; reflexivity).
      apply (reg_lanes W 128); [exact HK|apply v1_reg; reflexivity|apply splat_reg; exact HK|]. intros j Hj.
      rewrite (sh_r w Hw) by (auto; try lia; intros k Hk; rewrite LS by auto; change (2 ^ 1) with 2; rewrite Hb1, Z.mul_comm; apply Z.mod_mul; lia).
      rewrite LS, lane_splat, wrap_small by (auto; lia). change (2 ^ 1) with 2. rewrite Hb1, Z.mul_comm. apply Z.div_mul. lia.
    - intros j Hj. destruct (inv_step _ _ _ (Nat2Z.is_nonneg P) (ND j) b _ _ Hb (HI j Hj)) as [HS HNR].
      assert (LR : lane W j (v2 W 128 Z.sub r2 csub) = rho' (lane W j num) (lane W j den) b (lane W j r)).
      { rewrite lane_v2, E3, E5 by auto. unfold rho'. assert (2 ^ (Z.of_nat P - b) <= 2 ^ W) by (apply Z.pow_le_mono_r; lia). pose proof (ND j). destruct (Z.ltb_spec (nr (lane W j num) b (lane W j r)) (lane W j den)); rewrite wrap_small; lia. }
      assert (LQ : lane W j (Z.lor q cbit) = q' (lane W j num) (lane W j den) b (lane W j r) (lane W j q)).
      { rewrite lane_lor, E6 by lia. unfold q'. destruct (_ <? _); [apply Z.lor_0_r|]. destruct (HI j Hj) as (t & -> & Ht & _). apply lor_pow; lia. }
      rewrite <- LR, <- LQ in HS. exact HS.
  Qed.
  Lemma loop_ok (k : nat) st : (k <= P)%nat -> st_ok (Z.of_nat k) st -> exists r, div_p_loop A w num den k st = Ok r /\ reg 128 r /\
    forall j, 0 <= j < cnt -> lane W j r = if lane W j den =? 0 then 2 ^ Z.of_nat P - 1 else (lane W j num mod 2 ^ Z.of_nat P) / lane W j den.
  Proof.
    revert st. induction k as [|k IH]; intros [[r q] bm] Hk HS; cbn [div_p_loop].
    - destruct HS as (Hr & Hq & _ & HI). exists q. split; auto. split; auto. intros j Hj. specialize (HI j Hj). change (Z.of_nat 0) with 0 in HI. apply inv_end in HI; [exact HI|lia|apply lane_range; pose proof wpos; lia].
    - destruct (step_ok (Z.of_nat k) (r, q, bm)) as (st' & -> & HS'); [lia|replace (Z.of_nat k + 1) with (Z.of_nat (S k)) by lia; exact HS|]. cbn [bind]. apply IH; [lia|exact HS'].
  Qed.
  Theorem div_p_simd_ok : use_null A = false -> (1 <= P)%nat -> exists r, div_p A w P num den = Ok r /\ reg 128 r /\
    forall j, 0 <= j < cnt -> lane W j r = if lane W j den =? 0 then 2 ^ Z.of_nat P - 1 else (lane W j num mod 2 ^ Z.of_nat P) / lane W j den.
  Proof.
    intros H0 H1. pose proof wpos as HW. assert (AV : avail_int A W R128 = true) by (apply avw; auto).
    assert (E : div_p A w P num den = (let* zero := konst A w R128 0 in let* bm := konst A w R128 (2 ^ (Z.of_nat P - 1)) in div_p_loop A w num den P (zero, zero, bm))).
    { unfold div_p. rewrite H0. destruct (Z.ltb_spec (Z.of_nat P) 1); [lia|]. destruct (Z.ltb_spec (wb w) (Z.of_nat P)); [lia|]. destruct Hw as [-> | ->]; reflexivity. }
    rewrite E, !konst_ok by auto. cbn [bind rbits]. apply loop_ok; [lia|]. assert (HK := wokW w Hw).
    split; [apply splat_reg; auto|]. split; [apply splat_reg; auto|]. split; [auto|]. intros j Hj. rewrite lane_splat, wrap_0 by auto. apply inv_start. lia.
  Qed.
End R.

(** the portable version *)
Lemma mask_ok P : 1 <= P <= 16 -> (let* m := c_not (c_u64, 0) in let* m := c_shl m (c_u32, P) in c_not m) = Ok (c_u64, 2 ^ P - 1).
Proof.
  intros HP. assert (H : P = 1 \/ P = 2 \/ P = 3 \/ P = 4 \/ P = 5 \/ P = 6 \/ P = 7 \/ P = 8 \/ P = 9 \/ P = 10 \/ P = 11 \/ P = 12 \/ P = 13 \/ P = 14 \/ P = 15 \/ P = 16) by lia.
  repeat (destruct H as [->|H]; [vm_compute; reflexivity|]). subst P. vm_compute. reflexivity.
Qed.
Lemma land_low x P : 0 <= P -> Z.land x (2 ^ P - 1) = x mod 2 ^ P.
Proof. intros. rewrite Z.sub_1_r, <- Z.ones_equiv. apply Z.land_ones. auto. Qed.
Lemma fits_u64 x : 0 <= x < 2 ^ 64 -> fits c_u64 x = true.
Proof. intros H. apply fits_spec. cbn. lia. Qed.
Lemma cres_u64 x : cres c_u64 x = Ok (c_u64, wrap 64 x). Proof. reflexivity. Qed.
Section Nul.
  Variables (w : ew) (P : Z).
  Hypotheses (Hw : w = W8 \/ w = W16) (HP : 1 <= P <= wb w).
  Local Notation W := (wb w).
  Lemma and_m x : 0 <= x < 2 ^ W -> c_and (ut w, cconv (ut w) x) (c_u64, 2 ^ P - 1) = Ok (c_u64, x mod 2 ^ P).
  Proof.
    intros Hx. assert (HPP : 2 <= 2 ^ P <= 65536).
    { split; [change 2 with (2 ^ 1) at 1|change 65536 with (2 ^ 16)]; apply Z.pow_le_mono_r; try lia. destruct Hw as [-> | ->]; cbn in HP; lia. }
    assert (HX : x < 65536) by (destruct Hw as [-> | ->]; cbn [wb] in Hx; [change (2 ^ 8) with 256 in Hx|change (2 ^ 16) with 65536 in Hx]; lia).
    rewrite u_cconv by auto. unfold c_and. rewrite (carith_gen c_u64).
    - rewrite cres_u64. rewrite land_low by lia. pose proof (Z.mod_pos_bound x (2 ^ P) ltac:(lia)). rewrite wrap_small; [reflexivity|change (2 ^ 64) with 18446744073709551616; lia].
    - destruct Hw as [-> | ->]; reflexivity.
    - reflexivity.
    - apply fits_u64. change (2 ^ 64) with 18446744073709551616. lia.
    - apply fits_u64. change (2 ^ 64) with 18446744073709551616. lia.
  Qed.
  Theorem null_div_p_ok a b : (forall i, 0 <= i < 128 / W -> lane W i b mod 2 ^ P <> 0) ->
    null_div_p (ut w) P 128 a b = Ok (v2 W 128 (s_div_p P) a b).
  Proof.
    intros HB. assert (HPP : 2 <= 2 ^ P <= 65536).
    { split; [change 2 with (2 ^ 1) at 1|change 65536 with (2 ^ 16)]; apply Z.pow_le_mono_r; try lia. destruct Hw as [-> | ->]; cbn in HP; lia. }
    unfold null_div_p. pose proof (mask_ok P) as HM. destruct (c_not (c_u64, 0)) as [m0| |] eqn:E0; try discriminate E0. cbn [bind] in *.
    assert (HP16 : 1 <= P <= 16) by (destruct Hw as [-> | ->]; cbn in HP; lia). specialize (HM HP16).
    destruct (c_shl m0 (c_u32, P)) as [m1| |]; try discriminate HM. cbn [bind] in *. rewrite HM. cbn [bind]. clear HM E0.
    assert (ES : snd (ut w) = W) by reflexivity. unfold v2. rewrite <- ES. apply nloop_pack; rewrite ES; [apply wokW; auto|]. intros i Hi.
    assert (HW0 : 0 <= W) by (destruct Hw as [-> | ->]; discriminate). pose proof (lane_range W i a HW0) as Ra. pose proof (lane_range W i b HW0) as Rb. specialize (HB i Hi).
    unfold el. rewrite ES, !and_m by auto. cbn [bind].
    set (x := lane W i a) in *. set (y := lane W i b) in *. pose proof (Z.mod_pos_bound x (2 ^ P) ltac:(lia)) as Rx. pose proof (Z.mod_pos_bound y (2 ^ P) ltac:(lia)) as Ry.
    assert (EQ : c_div (c_u64, x mod 2 ^ P) (c_u64, y mod 2 ^ P) = Ok (c_u64, s_div_p P x y)).
    { unfold c_div. change (promote (c_u64, x mod 2 ^ P)) with (c_u64, x mod 2 ^ P). change (promote (c_u64, y mod 2 ^ P)) with (c_u64, y mod 2 ^ P). cbv zeta. cbn [fst snd]. change (usual c_u64 c_u64) with c_u64.
      rewrite !cconv_id by (try reflexivity; apply fits_u64; change (2 ^ 64) with 18446744073709551616; lia). destruct (Z.eqb_spec (y mod 2 ^ P) 0); [contradiction|].
      rewrite cres_u64, Z.quot_div_nonneg by lia. assert (0 <= x mod 2 ^ P / (y mod 2 ^ P) <= x mod 2 ^ P) by (split; [apply Z.div_pos; lia|apply Z.div_le_upper_bound; nia]).
      rewrite wrap_small; [reflexivity|change (2 ^ 64) with 18446744073709551616; lia]. }
    rewrite EQ. cbn [bind].
    assert (RQ : 0 <= s_div_p P x y < 2 ^ P) by (unfold s_div_p; split; [apply Z.div_pos; lia|apply Z.div_lt_upper_bound; [lia|nia]]).
    assert (HPW : 2 ^ P <= 2 ^ W) by (apply Z.pow_le_mono_r; lia).
    unfold ccast. cbn [snd]. eexists. split; [apply and_m; lia|]. cbn [snd]. rewrite (Z.mod_small _ (2 ^ P)) by lia. reflexivity.
  Qed.
End Nul.
