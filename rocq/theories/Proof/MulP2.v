From Verif Require Export Proof.MulP.

(** ------------ arithmetic of halves ------------ *)
Lemma halves_join w p : 0 < w -> wrap w p + 2 ^ w * wrap w (Z.shiftr p w) = wrap (2 * w) p.
Proof.
  intros Hw. unfold wrap. rewrite Z.shiftr_div_pow2 by lia. replace (2 * w) with (w + w) by ring. rewrite Z.pow_add_r by lia.
  pose proof (pow2_pos w ltac:(lia)). rewrite Z.rem_mul_r by lia. reflexivity.
Qed.
Lemma wrap_prod_sgn w x y : 0 < w -> wrap w (sgn w x * sgn w y) = wrap w (x * y).
Proof.
  intros Hw. rewrite <- wrap_mul_l, <- wrap_mul_r, !wrap_sgn, wrap_mul_l, wrap_mul_r by lia. reflexivity.
Qed.
Lemma prod_range w x y : 0 <= w -> 0 <= x < 2 ^ w -> 0 <= y < 2 ^ w -> 0 <= x * y < 2 ^ (2 * w).
Proof. intros Hw Hx Hy. replace (2 * w) with (w + w) by ring. rewrite Z.pow_add_r by lia. nia. Qed.
Lemma s_mull_range sg w x y : 0 <= w -> 0 <= x < 2 ^ w -> 0 <= y < 2 ^ w -> 0 <= s_mull sg w x y < 2 ^ (2 * w).
Proof. intros Hw Hx Hy. unfold s_mull. destruct sg; [apply Z.mod_pos_bound, pow2_pos; lia|apply prod_range; auto]. Qed.
Definition mp (sg : bool) w x y := if sg then sgn w x * sgn w y else x * y.
Lemma s_mull_wrap sg w x y : 0 < w -> 0 <= x < 2 ^ w -> 0 <= y < 2 ^ w -> wrap (2 * w) (mp sg w x y) = s_mull sg w x y.
Proof. intros Hw Hx Hy. unfold s_mull, mp. destruct sg; [reflexivity|]. apply wrap_small. apply prod_range; auto; lia. Qed.
Lemma join16 sg x y : 0 <= x < 2 ^ 16 -> 0 <= y < 2 ^ 16 ->
  wrap 16 (sgn 16 x * sgn 16 y) + 2 ^ 16 * wrap 16 (Z.shiftr (mp sg 16 x y) 16) = s_mull sg 16 x y.
Proof.
  intros Hx Hy. rewrite <- (s_mull_wrap sg 16) by (auto; lia). rewrite <- (halves_join 16) by lia. f_equal.
  unfold mp. destruct sg; auto. apply wrap_prod_sgn. lia.
Qed.

(** ------------ 16 bits, via mullo and mulhi ------------ *)
Definition zk (hi : bool) (i : Z) := 8 * (i / 4) + (if hi then 4 else 0) + i mod 4.
Lemma wok16s s : wok 16 (rbits s) = true. Proof. destruct s; reflexivity. Qed.
Lemma zk_range s hi i : 0 <= i < rbits s / 32 -> 0 <= zk hi i < rbits s / 16.
Proof.
  intros Hi. unfold zk. pose proof (Z.div_mod i 4 ltac:(lia)). pose proof (Z.mod_pos_bound i 4 ltac:(lia)).
  destruct s; cbn [rbits] in *; [change (128 / 32) with 4 in *; change (128 / 16) with 8|change (256 / 32) with 8 in *; change (256 / 16) with 16|change (512 / 32) with 16 in *; change (512 / 16) with 32]; destruct hi; lia.
Qed.
Lemma mulhi_v2 sg R a b : mm_mulhi sg R a b = v2 16 R (fun x y => Z.shiftr (mp sg 16 x y) 16) a b.
Proof. destruct sg; reflexivity. Qed.
Lemma zip_prods sg s a b as_ bs :
  (forall (hi : bool) i, 0 <= i < rbits s / 32 ->
     lane 16 (zk hi i) as_ = lane 16 ((if hi then rbits s / 32 else 0) + i) a /\
     lane 16 (zk hi i) bs = lane 16 ((if hi then rbits s / 32 else 0) + i) b) ->
  let lo := mm_mullo 16 (rbits s) as_ bs in let hi := mm_mulhi sg (rbits s) as_ bs in
  prods 16 (rbits s) (s_mull sg 16) a b
    (lsh 16 (rbits s) 8 (p_zip 8 false) [lo; hi]) (lsh 16 (rbits s) 8 (p_zip 8 true) [lo; hi]).
Proof.
  intros HK lo hi i Hi. change (2 * 16) with 32 in *.
  assert (forall h, lane 32 i (lsh 16 (rbits s) 8 (p_zip 8 h) [lo; hi]) =
    s_mull sg 16 (lane 16 ((if h then rbits s / 32 else 0) + i) a) (lane 16 ((if h then rbits s / 32 else 0) + i) b)) as HH.
  { intros h. pose proof (zip_lane I16 s h lo hi i ltac:(auto) Hi) as ZL. change (en I16) with 8 in ZL. change (eb I16) with 16 in ZL. change (2 * 16) with 32 in ZL. rewrite ZL. clear ZL. cbv zeta.
    change (8 / 2) with 4. fold (zk h i). pose proof (zk_range s h i Hi) as Hk.
    unfold lo, hi. rewrite mulhi_v2. unfold mm_mullo. rewrite !lane_v2 by (auto using wok16s).
    destruct (HK h i Hi) as [-> ->]. apply join16; apply lane_range; lia. }
  split; [apply (HH false)|apply (HH true)].
Qed.
Lemma lane16_of64 k x : 0 <= k -> lane 16 k x = lane 16 (k mod 4) (lane 64 (k / 4) x).
Proof.
  intros Hk. pose proof (Z.mod_pos_bound k 4 ltac:(lia)). change 64 with (16 * 4). rewrite lane_lane by (try lia; apply Z.div_pos; lia).
  f_equal. rewrite (Z.div_mod k 4) at 1 by lia. ring.
Qed.
Lemma perm_lane16 s x a (hi : bool) i : 0 <= i < rbits s / 32 ->
  (forall (h : bool) g, 0 <= g < rbits s / 128 ->
     lane 64 (2 * g + if h then 1 else 0) x = lane 64 ((if h then rbits s / 128 else 0) + g) a) ->
  lane 16 (zk hi i) x = lane 16 ((if hi then rbits s / 32 else 0) + i) a.
Proof.
  intros Hi HX. pose proof (zk_range s hi i Hi) as Hk. pose proof (Z.mod_pos_bound i 4 ltac:(lia)). pose proof (Z.div_mod i 4 ltac:(lia)).
  assert (rbits s / 32 = 4 * (rbits s / 128)) as E by (destruct s; reflexivity).
  assert (0 < rbits s / 128) by (destruct s; reflexivity).
  assert (0 <= i / 4 < rbits s / 128) as Hg by lia.
  rewrite lane16_of64 by lia. rewrite (lane16_of64 (_ + i)) by (destruct hi; lia).
  assert (zk hi i / 4 = 2 * (i / 4) + (if hi then 1 else 0) /\ zk hi i mod 4 = i mod 4) as [-> ->].
  { unfold zk. replace (8 * (i / 4) + (if hi then 4 else 0) + i mod 4) with (i mod 4 + (2 * (i / 4) + (if hi then 1 else 0)) * 4) by (destruct hi; ring).
    rewrite Z.div_add, Z.mod_add, (Z.div_small (i mod 4)), Z.mod_mod by lia. split; lia. }
  assert (((if hi then rbits s / 32 else 0) + i) / 4 = (if hi then rbits s / 128 else 0) + i / 4 /\ ((if hi then rbits s / 32 else 0) + i) mod 4 = i mod 4) as [-> ->].
  { replace ((if hi then rbits s / 32 else 0) + i) with (i + (if hi then rbits s / 128 else 0) * 4) by (rewrite E; destruct hi; ring).
    rewrite Z.div_add, Z.mod_add by lia. split; lia. }
  rewrite HX by auto. reflexivity.
Qed.
Lemma perm256_ok a (h : bool) g : 0 <= g < 2 ->
  lane 64 (2 * g + if h then 1 else 0) (mm_permute4x64 256 (MM_SHUFFLE 3 1 2 0) a) = lane 64 ((if h then 2 else 0) + g) a.
Proof.
  intros Hg. unfold mm_permute4x64, lsh. rewrite lane_pack by (try reflexivity; change (256 / 64) with 4; destruct h; lia).
  assert (g = 0 \/ g = 1) as [-> | ->] by lia; destruct h;
  match goal with |- wrap 64 (lane 64 ?x _) = _ => let v := eval vm_compute in x in change x with v end;
  cbn [nth]; apply wrap_lane.
Qed.
Lemma perm512_ok a (h : bool) g : 0 <= g < 4 ->
  lane 64 (2 * g + if h then 1 else 0)
    (mm_permutexvar 64 512 (pack 64 512 (fun k => cval_at [0; 4; 1; 5; 2; 6; 3; 7] (0 + k))) a) = lane 64 ((if h then 4 else 0) + g) a.
Proof.
  intros Hg. unfold mm_permutexvar. rewrite lane_pack by (try reflexivity; change (512 / 64) with 8; destruct h; lia).
  rewrite lane_pack by (try reflexivity; change (512 / 64) with 8; destruct h; lia).
  assert (g = 0 \/ g = 1 \/ g = 2 \/ g = 3) as [-> |[-> |[-> | ->]]] by lia; destruct h;
  match goal with |- wrap 64 (lane 64 ?x a) = _ => let v := eval vm_compute in x in change x with v end; apply wrap_lane.
Qed.

(** ------------ the other rungs ------------ *)
Lemma lane128 w i n : (w = 16 \/ w = 32) -> n = 64 / w -> forall q a, 0 <= q -> 0 <= i < n -> lane w i (lane 64 q a) = lane w (q * n + i) a.
Proof. intros Hw -> q a Hq Hi. destruct Hw as [-> | ->]; [apply (lane_lane 16 4)|apply (lane_lane 32 2)]; try lia; exact Hi. Qed.
Lemma vmull_prods sg w a b : w12 w ->
  prods w 128 (s_mull sg w) a b (vmull sg w (vget_low a) (vget_low b)) (vmull sg w (vget_high a) (vget_high b)).
Proof.
  intros Hw i Hi. assert (0 < w) by (destruct Hw as [-> | ->]; lia).
  assert (wok (w * 2) 128 = true /\ 128 / (2 * w) = 64 / w) as [HW E] by (destruct Hw as [-> | ->]; split; reflexivity).
  assert (forall x y, vmull sg w x y = pack (w * 2) 128 (fun i => mp sg w (lane w i x) (lane w i y))) as Hv by (intros; destruct sg; reflexivity).
  rewrite !Hv. rewrite (Z.mul_comm 2 w) at 1 2. rewrite (Z.mul_comm 2 w) in Hi. rewrite !lane_pack by auto.
  rewrite (Z.mul_comm w 2) in *. rewrite E in *. unfold vget_low, vget_high.
  rewrite !(lane128 w i (64 / w)) by (auto; lia). rewrite !(Z.mul_0_l), !Z.mul_1_l, Z.add_0_l.
  split; apply s_mull_wrap; auto; apply lane_range; lia.
Qed.
Lemma mule_lane sg w a b i : w12 w -> 0 <= i < 128 / (2 * w) -> lane (2 * w) i (vec_mule sg w a b) = s_mull sg w (lane w (2 * i) a) (lane w (2 * i) b).
Proof.
  intros Hw Hi. assert (0 < w) by (destruct Hw as [-> | ->]; lia). assert (wok (w * 2) 128 = true) as HW by (destruct Hw as [-> | ->]; reflexivity).
  rewrite (Z.mul_comm 2 w) in *. rewrite <- (s_mull_wrap sg w) by (auto; apply lane_range; lia). rewrite (Z.mul_comm 2 w).
  destruct sg; [unfold vec_mule, vec_mule_s|unfold vec_mule, vec_mule_u]; rewrite lane_pack by auto; reflexivity.
Qed.
Lemma mulo_lane sg w a b i : w12 w -> 0 <= i < 128 / (2 * w) -> lane (2 * w) i (vec_mulo sg w a b) = s_mull sg w (lane w (2 * i + 1) a) (lane w (2 * i + 1) b).
Proof.
  intros Hw Hi. assert (0 < w) by (destruct Hw as [-> | ->]; lia). assert (wok (w * 2) 128 = true) as HW by (destruct Hw as [-> | ->]; reflexivity).
  rewrite (Z.mul_comm 2 w) in *. rewrite <- (s_mull_wrap sg w) by (auto; apply lane_range; lia). rewrite (Z.mul_comm 2 w).
  destruct sg; [unfold vec_mulo, vec_mulo_s|unfold vec_mulo, vec_mulo_u]; rewrite lane_pack by auto; reflexivity.
Qed.
(** interleaving the products of the even and of the odd lanes *)
Lemma evenodd_prods sg w n a b : w12 w -> n = 128 / (2 * w) ->
  prods w 128 (s_mull sg w) a b (lsh (2 * w) 128 n (p_zip n false) [vec_mule sg w a b; vec_mulo sg w a b])
    (lsh (2 * w) 128 n (p_zip n true) [vec_mule sg w a b; vec_mulo sg w a b]).
Proof.
  intros Hw -> i Hi. set (n := 128 / (2 * w)) in *.
  assert (gok (2 * w) 128 n = true /\ 0 < 128 / (n * (2 * w)) /\ n = 2 * (n / 2) /\ 0 < n) as (G & Hg & E2 & Hn) by (destruct Hw as [-> | ->]; repeat split; reflexivity).
  assert (forall hi : bool, lane (2 * w) i (lsh (2 * w) 128 n (p_zip n hi) [vec_mule sg w a b; vec_mulo sg w a b]) =
    let k := (if hi then n else 0) + i in s_mull sg w (lane w k a) (lane w k b)) as HH.
  { intros hi. cbv zeta. replace i with (n * 0 + i) at 1 by lia. rewrite lane_lsh by (auto; lia).
    pose proof (Z.div_mod i 2 ltac:(lia)) as Dm. pose proof (Z.mod_pos_bound i 2 ltac:(lia)).
    assert (i / 2 < n / 2) by lia. assert (0 <= i / 2) by (apply Z.div_pos; lia).
    assert (Z.even i = (i mod 2 =? 0)) as Ev by (rewrite Zmod_even; destruct (Z.even i); reflexivity).
    destruct hi; unfold p_zip, p_zip_hi, p_zip_lo; rewrite Ev; destruct (Z.eqb_spec (i mod 2) 0); cbn [nth];
    rewrite ?mule_lane, ?mulo_lane by (auto; fold n; lia); f_equal; f_equal; lia. }
  split; [apply (HH false)|apply (HH true)].
Qed.
