From Verif Require Import Spec.Counting Model.Popcnt Proof.CppLemmas Proof.BitwiseP Proof.ArithP Proof.ShiftP Proof.SetSplatP
  Proof.MulP5 Proof.ExtractP2 Proof.SplitP.

Ltac zl := Z.div_mod_to_equations; lia.
(** ---------- counting ---------- *)
Fixpoint cnt (n : nat) (x : Z) : Z := match n with O => 0 | S n => Z.b2z (Z.odd x) + cnt n (x / 2) end.
Lemma cnt_spec n : forall x, cnt n x = fold_right Z.add 0 (map (fun i => Z.b2z (Z.testbit x (Z.of_nat i))) (seq 0 n)).
Proof.
  induction n as [|n IH]; intros x; [reflexivity|].
  cbn [cnt seq map fold_right]. rewrite IH. rewrite Z.bit0_odd. f_equal. f_equal.
  rewrite <- seq_shift, map_map. apply map_ext. intros i. rewrite Nat2Z.inj_succ, <- Z.div2_bits by lia. reflexivity.
Qed.
Lemma s_popcnt_cnt w x : s_popcnt w x = cnt (Z.to_nat w) x.
Proof. symmetry. apply cnt_spec. Qed.
Lemma bits_set_cnt w x : bits_set w x = cnt (Z.to_nat w) x.
Proof. unfold bits_set, zrange. rewrite map_map. symmetry. apply cnt_spec. Qed.
Lemma cnt_app n m : forall x, cnt (n + m) x = cnt n x + cnt m (x / 2 ^ Z.of_nat n).
Proof.
  induction n as [|n IH]; intros x; cbn [cnt Nat.add].
  - change (2 ^ Z.of_nat 0) with 1. rewrite Z.div_1_r. reflexivity.
  - rewrite IH, Nat2Z.inj_succ, Z.pow_succ_r, Z.div_div by lia. lia.
Qed.
Lemma cnt_low n : forall x y, cnt n (x + 2 ^ Z.of_nat n * y) = cnt n x.
Proof.
  induction n as [|n IH]; intros x y; [reflexivity|]. cbn [cnt]. rewrite Nat2Z.inj_succ, Z.pow_succ_r by lia.
  replace (x + 2 * 2 ^ Z.of_nat n * y) with (x + 2 ^ Z.of_nat n * y * 2) by ring.
  rewrite Z.div_add by lia. rewrite IH. f_equal.
  rewrite Z.add_comm, Z.odd_add, Z.odd_mul. cbn [Z.odd]. rewrite andb_false_r. destruct (Z.odd x); reflexivity.
Qed.
Lemma cnt_range n : forall x, 0 <= cnt n x <= Z.of_nat n.
Proof.
  induction n as [|n IH]; intros x; cbn [cnt]; [lia|]. specialize (IH (x / 2)). destruct (Z.odd x); cbn [Z.b2z]; lia.
Qed.

(** ---------- the bit tricks, byte by byte ---------- *)
Fixpoint rep (n : nat) (m : Z) : Z := match n with O => 0 | S n => m + 256 * rep n m end.
Fixpoint bytes (n : nat) (x : Z) : Z := match n with O => 0 | S n => cnt 8 (x mod 256) + 256 * bytes n (x / 256) end.
Definition st1 m x := x - Z.land (Z.shiftr x 1) m.
Definition st2 m p := Z.land p m + Z.land (Z.shiftr p 2) m.
Definition st3 p := p + Z.shiftr p 4.

Definition byte_check (x : Z) : bool :=
  let p1 := st1 85 x in let p2 := st2 51 p1 in
  (0 <=? p1) && (p1 <? 256) && (0 <=? p2) && (p2 <=? 68) && (p2 mod 16 <=? 4) && ((p2 + p2 / 16) mod 16 =? cnt 8 x).
Lemma byte_all : forallb byte_check (zrange 256) = true. Proof. vm_compute. reflexivity. Qed.
Lemma byte_ok x : 0 <= x < 256 -> let p1 := st1 85 x in let p2 := st2 51 p1 in
  0 <= p1 < 256 /\ 0 <= p2 <= 68 /\ p2 mod 16 <= 4 /\ (p2 + p2 / 16) mod 16 = cnt 8 x.
Proof.
  intros Hx p1 p2. pose proof byte_all as H. rewrite forallb_forall in H. specialize (H x (in_zrange _ _ Hx)).
  unfold byte_check in H. fold p1 in H. fold p2 in H. rewrite !andb_true_iff in H. lia.
Qed.
Lemma land_split k lo hi m M : 0 <= k <= 8 -> 0 <= lo < 256 -> 0 <= m < 2 ^ (8 - k) ->
  Z.land (Z.shiftr (lo + 256 * hi) k) (m + 256 * M) = Z.land (Z.shiftr lo k) m + 256 * Z.land (Z.shiftr hi k) M.
Proof.
  intros Hk Hlo Hm. assert (Hm' : 0 <= m < 256) by (split; [lia|]; apply Z.lt_le_trans with (2 ^ (8 - k)); [lia|]; change 256 with (2 ^ 8); apply Z.pow_le_mono_r; lia).
  assert (Hab : forall a i, 0 <= a < 256 -> 8 <= i -> Z.testbit a i = false).
  { intros a i Ha Hi. destruct (Z.eq_dec a 0) as [->|]; [apply Z.bits_0|]. apply Z.bits_above_log2; [lia|]. apply Z.log2_lt_pow2; [lia|].
    apply Z.lt_le_trans with 256; [lia|]; change 256 with (2 ^ 8); apply Z.pow_le_mono_r; lia. }
  assert (D : forall a b, 0 <= a < 256 -> a + 256 * b = Z.lor a (Z.shiftl b 8)).
  { intros a b Ha. replace (256 * b) with (Z.shiftl b 8) by (rewrite Z.shiftl_mul_pow2 by lia; lia).
    assert (Hz : Z.land a (Z.shiftl b 8) = 0).
    { apply Z.bits_inj'. intros j Hj. rewrite Z.land_spec, Z.bits_0, Z.shiftl_spec by lia. destruct (Z.ltb_spec j 8).
      - rewrite (Z.testbit_neg_r b) by lia. apply andb_false_r.
      - rewrite (Hab a j) by lia. reflexivity. }
    rewrite <- Z.lxor_lor by auto. apply Z.add_nocarry_lxor. auto. }
  assert (Hl : 0 <= Z.land (Z.shiftr lo k) m < 256).
  { assert (Z.land (Z.shiftr lo k) m = Z.land (Z.land (Z.shiftr lo k) m) (Z.ones 8)) as E.
    { rewrite <- Z.land_assoc. rewrite (Z.land_ones m) by lia. rewrite (Z.mod_small m) by (change (2 ^ 8) with 256; lia). reflexivity. }
    rewrite E, Z.land_ones by lia. apply Z.mod_pos_bound. reflexivity. }
  rewrite (D lo hi), (D m M), (D _ _ Hl) by lia.
  apply Z.bits_inj'. intros j Hj.
  repeat first [rewrite Z.land_spec | rewrite Z.lor_spec | rewrite Z.shiftr_spec by lia].
  rewrite !Z.shiftl_spec by lia. 
  destruct (Z.ltb_spec j 8).
  - rewrite (Z.testbit_neg_r M), (Z.testbit_neg_r (Z.land _ _) (j - 8)) by lia. rewrite !orb_false_r.
    destruct (Z.ltb_spec (j + k) 8).
    + rewrite (Z.testbit_neg_r hi) by lia. rewrite orb_false_r. reflexivity.
    + assert (Z.testbit m j = false) as ->; [|rewrite !andb_false_r; reflexivity].
      destruct (Z.eq_dec m 0) as [->|]; [apply Z.bits_0|]. apply Z.bits_above_log2; [lia|]. apply Z.log2_lt_pow2; [lia|].
      apply Z.lt_le_trans with (2 ^ (8 - k)); [lia|]. apply Z.pow_le_mono_r; lia.
  - rewrite (Hab lo), (Hab m) by lia. rewrite Z.land_spec, Z.shiftr_spec by lia. cbn [orb]. rewrite andb_false_r. cbn [orb].
    replace (j + k - 8) with (j - 8 + k) by lia. reflexivity.
Qed.
Lemma swar n : forall x, 0 <= x < 256 ^ Z.of_nat n ->
  let p1 := st1 (rep n 85) x in let p2 := st2 (rep n 51) p1 in
  0 <= p1 < 256 ^ Z.of_nat n /\ 0 <= p2 < 256 ^ Z.of_nat n /\ p2 mod 16 <= 4 /\ 0 <= st3 p2 < 256 ^ Z.of_nat n /\
  Z.land (st3 p2) (rep n 15) = bytes n x.
Proof.
  induction n as [|n IH]; intros x Hx.
  - change (256 ^ Z.of_nat 0) with 1 in Hx. assert (x = 0) as -> by lia. vm_compute. repeat split; congruence || discriminate.
  - rewrite Nat2Z.inj_succ, Z.pow_succ_r in * by lia. set (P := 256 ^ Z.of_nat n) in *.
    assert (Ex : x = x mod 256 + 256 * (x / 256)) by (pose proof (Z.div_mod x 256); lia).
    pose proof (Z.mod_pos_bound x 256 eq_refl) as Hlo. set (lo := x mod 256) in *. set (hi := x / 256) in *.
    assert (Hhi : 0 <= hi < P) by lia.
    destruct (byte_ok lo Hlo) as (L1 & L2 & L3 & L4). destruct (IH hi Hhi) as (H1 & H2 & H3 & H4 & H5).
    clear IH. intros p1 p2. change (rep (S n) 85) with (85 + 256 * rep n 85) in p1. change (rep (S n) 51) with (51 + 256 * rep n 51) in p2.
    change (rep (S n) 15) with (15 + 256 * rep n 15). change (bytes (S n) x) with (cnt 8 lo + 256 * bytes n hi).
    assert (E1 : p1 = st1 85 lo + 256 * st1 (rep n 85) hi).
    { unfold p1, st1. rewrite Ex at 1 2. rewrite (land_split 1) by (change (2 ^ (8 - 1)) with 128; lia). lia. }
    set (q1 := st1 85 lo) in *. set (r1 := st1 (rep n 85) hi) in *.
    assert (E2 : p2 = st2 51 q1 + 256 * st2 (rep n 51) r1).
    { unfold p2, st2. rewrite E1. rewrite (land_split 2) by (change (2 ^ (8 - 2)) with 64; lia).
      pose proof (land_split 0 q1 r1 51 (rep n 51) ltac:(lia) L1 ltac:(change (2 ^ (8 - 0)) with 256; lia)) as E.
      rewrite !Z.shiftr_0_r in E. rewrite E. lia. }
    set (q2 := st2 51 q1) in *. set (r2 := st2 (rep n 51) r1) in *.
    unfold st3 in *. rewrite Z.shiftr_div_pow2 in * by lia. change (2 ^ 4) with 16 in *.
    clearbody p2 p1 q2 r2 q1 r1 hi lo P. assert (Hr : 0 <= r2 mod 16 <= 4) by zl.
    assert (E3 : p2 + p2 / 16 = (q2 + q2 / 16 + 16 * (r2 mod 16)) + 256 * (r2 + r2 / 16)).
    { rewrite E2. replace (q2 + 256 * r2) with (q2 + (16 * r2) * 16) at 2 by ring. rewrite Z.div_add by lia. zl. }
    assert (Hq : 0 <= q2 + q2 / 16 + 16 * (r2 mod 16) < 256) by zl.
    split; [lia|]. split; [lia|]. split; [|split; [zl|]].
    + replace p2 with (q2 + 16 * r2 * 16) by lia. rewrite Z.mod_add by lia. lia.
    + rewrite E3. pose proof (land_split 0 _ (r2 + r2 / 16) 15 (rep n 15) ltac:(lia) Hq ltac:(change (2 ^ (8 - 0)) with 256; lia)) as E.
      rewrite !Z.shiftr_0_r in E. rewrite E, H5. f_equal.
      change 15 with (Z.ones 4). rewrite Z.land_ones by lia. change (2 ^ 4) with 16. rewrite <- L4.
      rewrite (Z.mul_comm 16). apply Z.mod_add. lia.
Qed.

(** ---------- the sum of the byte counts ---------- *)
Fixpoint csum (n : nat) (x : Z) : Z := match n with O => 0 | S n => cnt 8 (x mod 256) + csum n (x / 256) end.
Lemma cnt8_mod x : cnt 8 (x mod 256) = cnt 8 x.
Proof. rewrite <- (cnt_low 8 (x mod 256) (x / 256)). f_equal. change (2 ^ Z.of_nat 8) with 256. pose proof (Z.div_mod x 256). lia. Qed.
Lemma csum_cnt n : forall x, csum n x = cnt (8 * n) x.
Proof.
  induction n as [|n IH]; intros x; [reflexivity|]. cbn [csum]. rewrite IH, cnt8_mod.
  replace (8 * S n)%nat with (8 + 8 * n)%nat by lia. rewrite cnt_app. reflexivity.
Qed.
Lemma c8 x : 0 <= cnt 8 x <= 8. Proof. pose proof (cnt_range 8 x). lia. Qed.
Lemma div_lo m a b : 0 <= a < m -> (a + m * b) / m = b.
Proof. intros. rewrite Z.mul_comm, Z.div_add by lia. rewrite Z.div_small; lia. Qed.
Lemma mod_lo m a b : 0 <= a < m -> (a + m * b) mod m = a.
Proof. intros. rewrite Z.mul_comm, Z.mod_add by lia. apply Z.mod_small; lia. Qed.
Lemma land_ff x : Z.land x 255 = x mod 256.
Proof. change 255 with (Z.ones 8). rewrite Z.land_ones by lia. reflexivity. Qed.
Definition b2 c0 c1 := c0 + 256 * (c1 + 256 * 0).
Definition b4 c0 c1 c2 c3 := c0 + 256 * (c1 + 256 * (c2 + 256 * (c3 + 256 * 0))).
Definition b8 c0 c1 c2 c3 c4 c5 c6 c7 := c0 + 256 * (c1 + 256 * (c2 + 256 * (c3 + 256 * (c4 + 256 * (c5 + 256 * (c6 + 256 * (c7 + 256 * 0))))))).
Definition up c x := x + Z.shiftr x c.
Lemma fin16 x : let p := bytes 2 x in wrap 16 (up 8 p) = up 8 p /\ Z.land (up 8 p) 255 = csum 2 x.
Proof.
  cbn [bytes csum]. pose proof (c8 (x mod 256)). pose proof (c8 (x / 256 mod 256)).
  set (c0 := cnt 8 (x mod 256)) in *. set (c1 := cnt 8 (x / 256 mod 256)) in *. clearbody c0 c1.
  unfold up. rewrite Z.shiftr_div_pow2 by lia. change (2 ^ 8) with 256. rewrite (div_lo 256 c0) by lia.
  replace (c0 + 256 * (c1 + 256 * 0) + (c1 + 256 * 0)) with ((c0 + c1) + 256 * c1) by lia.
  split; [apply Z.mod_small; lia|]. rewrite land_ff, mod_lo; lia.
Qed.
Ltac gen_c x :=
  repeat match goal with |- context [cnt 8 ?t] => let c := fresh "c" in pose proof (c8 t); set (c := cnt 8 t) in *; clearbody c end.
Lemma fin32 x : let p := bytes 4 x in wrap 32 (up 8 p) = up 8 p /\ wrap 32 (up 16 (up 8 p)) = up 16 (up 8 p) /\
  Z.land (up 16 (up 8 p)) 255 = csum 4 x.
Proof.
  cbn [bytes csum]. gen_c x. unfold up. rewrite !Z.shiftr_div_pow2 by lia. change (2 ^ 8) with 256. change (2 ^ 16) with 65536.
  rewrite (div_lo 256 c) by lia.
  set (q := c + 256 * _ + _). assert (Hq : q = ((c + c0) + 256 * (c0 + c1)) + 65536 * ((c1 + c2) + 256 * c2)) by (unfold q; ring). clearbody q.
  assert (E : q / 65536 = (c1 + c2) + 256 * c2) by (rewrite Hq, div_lo; lia). rewrite E.
  replace (q + (c1 + c2 + 256 * c2)) with ((c + c0 + c1 + c2) + 256 * (c0 + c1 + c2 + 256 * (c1 + c2 + 256 * c2))) by lia.
  split; [apply Z.mod_small; lia|]. split; [apply Z.mod_small; lia|]. rewrite land_ff, mod_lo; lia.
Qed.
Lemma fin64 x : let p := bytes 8 x in wrap 64 (up 8 p) = up 8 p /\ wrap 64 (up 16 (up 8 p)) = up 16 (up 8 p) /\
  wrap 64 (up 32 (up 16 (up 8 p))) = up 32 (up 16 (up 8 p)) /\ Z.land (up 32 (up 16 (up 8 p))) 255 = csum 8 x.
Proof.
  cbn [bytes csum]. gen_c x. unfold up. rewrite !Z.shiftr_div_pow2 by lia. change (2 ^ 8) with 256. change (2 ^ 16) with 65536.
  change (2 ^ 32) with 4294967296.
  rewrite (div_lo 256 c) by lia.
  set (q := c + 256 * _ + _).
  assert (Hq : q = ((c + c0) + 256 * (c0 + c1)) + 65536 * ((c1 + c2) + 256 * (c2 + c3 + 256 * (c3 + c4 + 256 * (c4 + c5 + 256 * (c5 + c6 + 256 * c6)))))) by (unfold q; ring). clearbody q.
  set (h := c1 + c2 + _) in Hq.
  assert (E : q / 65536 = h) by (rewrite Hq, div_lo; lia). rewrite E.
  assert (Hz : q + h = (c + c0 + c1 + c2 + 256 * (c0 + c1 + c2 + c3 + 256 * (c1 + c2 + c3 + c4 + 256 * (c2 + c3 + c4 + c5))))
     + 4294967296 * (c3 + c4 + c5 + c6 + 256 * (c4 + c5 + c6 + 256 * (c5 + c6 + 256 * c6)))) by (rewrite Hq; unfold h; ring).
  set (z := q + h) in *. clearbody z. 
  assert (E2 : z / 4294967296 = (c3 + c4 + c5 + c6 + 256 * (c4 + c5 + c6 + 256 * (c5 + c6 + 256 * c6)))) by (rewrite Hz, div_lo; lia).
  rewrite E2. unfold h in *. clear h E E2.
  assert (Hb : forall y, 0 <= y < 18446744073709551616 -> wrap 64 y = y) by (intros; apply Z.mod_small; auto).
  split; [apply Hb; lia|]. split; [apply Hb; lia|]. split; [apply Hb; lia|]. rewrite land_ff.
  replace (z + _) with ((c + c0 + c1 + c2 + c3 + c4 + c5 + c6) + 256 * (c0 + c1 + c2 + c3 + c4 + c5 + c6 + 256 * (c1 + c2 + c3 + c4 + c5 + c6 + 256 * (c2 + c3 + c4 + c5 + c6)) + 16777216 * (c3 + c4 + c5 + c6 + 256 * (c4 + c5 + c6 + 256 * (c5 + c6 + 256 * c6)))))
    by (rewrite Hz; ring). rewrite mod_lo; lia.
Qed.
Lemma mul32 x : Z.shiftr (wrap 32 (bytes 4 x * 0x01010101)) 24 = csum 4 x.
Proof.
  cbn [bytes csum]. gen_c x. rewrite Z.shiftr_div_pow2 by lia. unfold wrap. change (2 ^ 32) with 4294967296. change (2 ^ 24) with 16777216.
  replace ((c + _) * _) with ((c + 256 * (c + c0) + 65536 * (c + c0 + c1) + 16777216 * (c + c0 + c1 + c2)) + 4294967296 * (c0 + c1 + c2 + 256 * (c1 + c2) + 65536 * c2)) by ring.
  rewrite mod_lo by lia. rewrite div_lo; lia.
Qed.
Lemma mul64 x : Z.shiftr (wrap 64 (bytes 8 x * 0x0101010101010101)) 56 = csum 8 x.
Proof.
  cbn [bytes csum]. gen_c x. rewrite Z.shiftr_div_pow2 by lia. unfold wrap. change (2 ^ 64) with 18446744073709551616. change (2 ^ 56) with 72057594037927936.
  replace ((c + _) * _) with ((c + 256 * (c + c0) + 65536 * (c + c0 + c1) + 16777216 * (c + c0 + c1 + c2) + 4294967296 * (c + c0 + c1 + c2 + c3)
     + 1099511627776 * (c + c0 + c1 + c2 + c3 + c4) + 281474976710656 * (c + c0 + c1 + c2 + c3 + c4 + c5) + 72057594037927936 * (c + c0 + c1 + c2 + c3 + c4 + c5 + c6))
     + 18446744073709551616 * (c0 + c1 + c2 + c3 + c4 + c5 + c6 + 256 * (c1 + c2 + c3 + c4 + c5 + c6) + 65536 * (c2 + c3 + c4 + c5 + c6) + 16777216 * (c3 + c4 + c5 + c6)
       + 4294967296 * (c4 + c5 + c6) + 1099511627776 * (c5 + c6) + 281474976710656 * c6)) by ring.
  rewrite mod_lo by lia. rewrite div_lo; lia.
Qed.
