From Verif Require Export Proof.MulP4 Proof.ShiftP.

(** ------------ mul_lo ------------ *)
Definition small16 (x y : Z) : Prop := x * y <= 2147483647.
Lemma null_mul16_ok a b : (forall i, 0 <= i < 8 -> small16 (lane 16 i a) (lane 16 i b)) ->
  null_mul (ut W16) 128 a b = Ok (v2 16 128 Z.mul a b).
Proof.
  intros HS. unfold null_mul. apply (nloop_pack (ut W16)); [reflexivity|]. cbn [ut snd wb]. change (128 / 16) with 8. intros i Hi.
  unfold el. cbn [snd ut wb]. pose proof (lane_range 16 i a ltac:(lia)) as Ra. pose proof (lane_range 16 i b ltac:(lia)) as Rb.
  change (2 ^ 16) with 65536 in *. unfold cconv; cbn [fst snd]. rewrite !wrap_small by assumption.
  specialize (HS i Hi). unfold small16 in HS. set (x := lane 16 i a) in *. set (y := lane 16 i b) in *. clearbody x y.
  unfold c_mul. rewrite carith_int; [|reflexivity|reflexivity|apply fits_spec; cbn; lia|apply fits_spec; cbn; lia].
  rewrite cres_ok by (apply fits_spec; cbn; nia). eexists. split; [reflexivity|]. reflexivity.
Qed.
Lemma null_mul32_ok a b : null_mul (ut W32) 128 a b = Ok (v2 32 128 Z.mul a b).
Proof.
  unfold null_mul. apply (nloop_v2 (ut W32)); [reflexivity|]. cbn [ut snd wb]. intros x y Hx Hy.
  unfold cconv; cbn [fst snd]. rewrite !wrap_small by assumption. unfold c_mul.
  rewrite carith_wide; [|reflexivity|apply fits_spec; exact Hx|apply fits_spec; exact Hy].
  unfold ut. rewrite cres_u. eexists. split; [reflexivity|]. apply wrap_wrap.
Qed.
Lemma mul_sgn_v2 w R a b : wok w R = true -> v2 w R (fun x y => sgn w x * sgn w y) a b = v2 w R Z.mul a b.
Proof. intros HW. apply v2_ext; auto. intros. apply wrap_prod_sgn. destruct (wok_spec _ _ HW); auto. Qed.
Lemma i_mul_lo16_ok A s a b : valid_arch A = true -> avail_int A 16 s = true -> reg (rbits s) a -> reg (rbits s) b ->
  (use_null A = true -> forall i, 0 <= i < rbits s / 16 -> small16 (lane 16 i a) (lane 16 i b)) ->
  i_mul_lo16 A s a b = Ok (v2 16 (rbits s) Z.mul a b).
Proof.
  intros HV HA Ha Hb HN. unfold i_mul_lo16. destruct s; cbn [rbits] in *.
  - destruct (use_null A) eqn:EN; [apply null_mul16_ok; auto|]. fam HV; repeat split_if; try solve [vimp HV]; f_equal;
    unfold mm_mullo, vmulq, msa_mulv; rewrite ?mul_sgn_v2 by reflexivity; auto.
    unfold vec_mladd, v3. apply pack_ext; [reflexivity|]. intros i Hi. rewrite lane_of_zero, ?Z.add_0_r. first [reflexivity|apply wrap_prod_sgn; lia].
  - cbn [avail_int] in HA. rewrite HA. f_equal. apply mul_sgn_v2. reflexivity.
  - assert (use_avx512bw A = true) as -> by exact HA. f_equal. apply mul_sgn_v2. reflexivity.
Qed.

Lemma four_lanes r (f : Z -> Z) : lane 32 0 r = f 0 -> lane 32 1 r = f 1 -> lane 32 2 r = f 2 -> lane 32 3 r = f 3 ->
  forall i, 0 <= i < 4 -> lane 32 i r = f i.
Proof. intros ? ? ? ? i Hi. assert (i = 0 \/ i = 1 \/ i = 2 \/ i = 3) as [-> |[-> |[-> | ->]]] by lia; auto. Qed.
Lemma mul_epu32_lo a b i : 0 <= i < 2 -> lane 32 (2 * i) (mm_mul_epu32 128 a b) = wrap 32 (lane 32 (2 * i) a * lane 32 (2 * i) b).
Proof.
  intros Hi. change (mm_mul_epu32 128 a b) with (mm_mul32 false 128 a b). rewrite <- lane64_lo by lia. rewrite mul32_lane by (auto; exact Hi). reflexivity.
Qed.
(** split a 32-bit product by halves *)
Lemma mul_halves x y xl xh yl yh : x = xl + 65536 * xh -> y = yl + 65536 * yh ->
  wrap 32 (Z.shiftl (xl * yh + xh * yl) 16 + xl * yl) = wrap 32 (x * y).
Proof.
  intros -> ->. rewrite Z.shiftl_mul_pow2 by lia. change (2 ^ 16) with 65536. apply eq_mod_wrap.
  exists (- (xh * yh)). change (2 ^ 32) with (65536 * 65536). ring.
Qed.
Lemma lsh1 w n L env k : gok w 128 n = true -> 128 / (n * w) = 1 -> 0 <= k < n ->
  lane w k (lsh w 128 n L env) = match L k with None => 0 | Some (m, j) => lane w j (nth m env 0) end.
Proof.
  intros G E Hk. pose proof (lane_lsh w 128 n L env 0 k G Hk ltac:(rewrite E; lia)) as HL.
  rewrite Z.mul_0_r, Z.add_0_l in HL. rewrite HL. destruct (L k) as [[m j]|]; auto.
Qed.
Lemma sse2_mul_ok A a b : valid_arch A = true -> reg 128 a -> reg 128 b ->
  (let* a1 := i_move4_l A R128 1 a in
   let* b1 := i_move4_l A R128 1 b in
   let r := mm_mul_epu32 128 a b in
   let a1 := mm_mul_epu32 128 a1 b1 in
   let* r := i_shuffle2 A I32 R128 0 2 0 2 r a1 in
   i_permute4 A I32 R128 0 2 1 3 r) = Ok (v2 32 128 Z.mul a b).
Proof.
  intros HV Ha Hb. rewrite !mv32_ok by (auto; lia). cbn [bind]. cbv zeta.
  rewrite (i_shuffle2_ok A I32 R128) by (auto; try lia; apply v2_reg; reflexivity). cbn [bind].
  rewrite (i_permute4_ok A I32 R128) by (auto; try lia; apply pack_reg; reflexivity). f_equal.
  apply eq_v2; [reflexivity|apply pack_reg; reflexivity|]. change (eb I32) with 32. change (rbits R128) with 128.
  set (p := mm_mul_epu32 128 a b). set (q := mm_mul_epu32 128 _ _).
  assert (forall i, 0 <= i < 2 -> lane 32 (2 * i) q = wrap 32 (lane 32 (2 * i + 1) a * lane 32 (2 * i + 1) b)) as Hq.
  { intros i Hi. unfold q. rewrite mul_epu32_lo by auto. assert (i = 0 \/ i = 1) as [-> | ->] by lia; rewrite !(lsh1 32 4) by (try reflexivity; lia); reflexivity. }
  pose proof (mul_epu32_lo a b 0 ltac:(lia)) as P0. pose proof (mul_epu32_lo a b 1 ltac:(lia)) as P1.
  pose proof (Hq 0 ltac:(lia)) as Q0. pose proof (Hq 1 ltac:(lia)) as Q1. fold p in P0, P1. cbn in P0, P1, Q0, Q1. clearbody p q.
  apply (four_lanes _ (fun i => wrap 32 (lane 32 i a * lane 32 i b))); rewrite (lsh1 32 4) by (try reflexivity; lia); cbv beta iota delta [p_permute4 Z.eqb Pos.eqb nth];
  rewrite (lsh1 32 4) by (try reflexivity; lia); cbv beta iota delta [p_shuffle2 Z.eqb Pos.eqb nth]; first [exact P0|exact P1|exact Q0|exact Q1].
Qed.

Lemma lane32_16 x i : 0 <= i -> lane 32 i x = lane 16 (2 * i) x + 65536 * lane 16 (2 * i + 1) x.
Proof. intros Hi. change 32 with (16 * 2) at 1. rewrite lane_double by lia. change (2 ^ 16) with 65536. ring. Qed.
Lemma altivec_mul_ok A a b : valid_arch A = true -> reg 128 a -> reg 128 b ->
  (let* sa := i_move8_l A R128 1 a in
   let* sb := i_move8_l A R128 1 b in
   let l_ab := vec_mule_u 16 a b in
   let h_ab := vec_mule_u 16 a sb in
   let h_ba := vec_mule_u 16 sa b in
   let* h := i_add A W32 R128 h_ab h_ba in
   let* h := i_shift_l_t A W32 R128 16 h in
   i_add A W32 R128 h l_ab) = Ok (v2 32 128 Z.mul a b).
Proof.
  intros HV Ha Hb. rewrite !mv16_ok by (auto; lia). cbn [bind]. cbv zeta.
  rewrite i_add_ok by auto. cbn [bind]. rewrite i_shift_l_t_ok by (auto; try (apply v2_reg; reflexivity); cbn; lia). cbn [bind].
  rewrite i_add_ok by auto. f_equal. cbn [wb rbits].
  apply eq_v2; [reflexivity|apply v2_reg; reflexivity|]. intros i Hi. unfold shl_v.
  rewrite lane_v2, lane_v1, lane_v2 by auto.
  change (vec_mule_u 16) with (vec_mule false 16). change 32 with (2 * 16) at 3 4 5.
  assert (forall x y, lane 32 i (vec_mule false 16 x y) = lane 16 (2 * i) x * lane 16 (2 * i) y) as HM.
  { intros x y. pose proof (mule_lane false 16 x y i ltac:(left; reflexivity) Hi) as E. exact E. }
  change (2 * 16) with 32. rewrite !HM. change (128 / 32) with 4 in Hi.
  assert (forall x, lane 16 (2 * i) (lsh 16 128 8 (p_move_l 8 1) [x]) = lane 16 (2 * i + 1) x) as HS.
  { intros x. rewrite (lsh1 16 8) by (try reflexivity; lia). unfold p_move_l. destruct (Z.ltb_spec (2 * i + 1) 8); [reflexivity|lia]. }
  rewrite !HS.
  rewrite <- (mul_halves _ _ _ _ _ _ (lane32_16 a i ltac:(lia)) (lane32_16 b i ltac:(lia))).
  rewrite wrap_add_l. rewrite !Z.shiftl_mul_pow2 by lia.
  rewrite <- wrap_add_l. rewrite wrap_mul_l. rewrite wrap_add_l. reflexivity.
Qed.
Lemma i_mul_lo32_ok A s a b : valid_arch A = true -> avail_int A 32 s = true -> reg (rbits s) a -> reg (rbits s) b ->
  i_mul_lo32 A s a b = Ok (v2 32 (rbits s) Z.mul a b).
Proof.
  intros HV HA Ha Hb. unfold i_mul_lo32. destruct s; cbn [rbits] in *.
  - destruct (use_null A) eqn:EN; [apply null_mul32_ok|].
    destruct (use_sse41 A) eqn:E41; [f_equal; apply mul_sgn_v2; reflexivity|].
    destruct (use_sse2 A) eqn:E2; [apply sse2_mul_ok; auto|].
    destruct (use_neon A) eqn:Ene; [f_equal; unfold vmulq; rewrite ?mul_sgn_v2 by reflexivity; reflexivity|].
    destruct (use_vsx207 A) eqn:EV; [reflexivity|].
    destruct (use_altivec A) eqn:EA; [apply altivec_mul_ok; auto|].
    destruct (use_msa A) eqn:EM; [f_equal; apply mul_sgn_v2; reflexivity|]. fam HV; vimp HV.
  - cbn [avail_int] in HA. rewrite HA. f_equal. apply mul_sgn_v2. reflexivity.
  - assert (use_avx512f A = true) as -> by exact HA. f_equal. apply mul_sgn_v2. reflexivity.
Qed.

(** ------------ mul_hi ------------ *)
Definition hi_v sg R a b := v2 16 R (fun x y => Z.shiftr (mp sg 16 x y) 16) a b.
Lemma hi_of_s_mull sg x y : 0 <= x < 2 ^ 16 -> 0 <= y < 2 ^ 16 -> s_mull sg 16 x y / 2 ^ 16 = wrap 16 (Z.shiftr (mp sg 16 x y) 16).
Proof.
  intros Hx Hy. rewrite <- (s_mull_wrap sg 16) by (auto; lia). rewrite <- (halves_join 16) by lia.
  rewrite (Z.mul_comm (2 ^ 16)), Z.div_add by lia. rewrite Z.div_small by (apply wrap_range; lia). reflexivity.
Qed.
Lemma lane16_hi x i : 0 <= i -> lane 16 (2 * i + 1) x = lane 32 i x / 2 ^ 16.
Proof.
  intros Hi. rewrite lane32_16 by lia. change 65536 with (2 ^ 16). rewrite (Z.mul_comm (2 ^ 16)), Z.div_add by lia.
  rewrite Z.div_small by (apply lane_range; lia). reflexivity.
Qed.
Lemma unzip_prods A sg a b x y : valid_arch A = true -> reg 128 x -> reg 128 y -> prods 16 128 (s_mull sg 16) a b x y ->
  i_unzip_hi A I16 R128 x y = Ok (hi_v sg 128 a b).
Proof.
  intros HV Hx Hy HP. rewrite i_unzip_hi_ok by auto. f_equal. change (eb I16) with 16. change (en I16) with 8. change (rbits R128) with 128.
  apply eq_v2; [reflexivity|apply pack_reg; reflexivity|]. intros i Hi. change (128 / 16) with 8 in Hi.
  rewrite (lsh1 16 8) by (try reflexivity; lia). unfold p_unzip_hi. change (8 / 2) with 4.
  destruct (Z.ltb_spec i 4); cbn [nth]; rewrite lane16_hi by lia.
  - destruct (HP i ltac:(change (128 / (2 * 16)) with 4; lia)) as [E _]. change (2 * 16) with 32 in E. rewrite E. apply hi_of_s_mull; apply lane_range; lia.
  - destruct (HP (i - 4) ltac:(change (128 / (2 * 16)) with 4; lia)) as [_ E]. change (2 * 16) with 32 in E. rewrite E.
    change (128 / 32) with 4. replace (4 + (i - 4)) with i by lia. apply hi_of_s_mull; apply lane_range; lia.
Qed.
Lemma null_hi_ok sg a b :
  nloop (ut W16) 128 (fun i => let* p := c_mul (ccast (ty sg 32) (el (ty sg 16) a i)) (el (ty sg 16) b i) in c_shr p (c_int, 16)) =
  Ok (hi_v sg 128 a b).
Proof.
  apply (nloop_pack (ut W16)); [reflexivity|]. cbn [ut snd wb]. change (128 / 16) with 8. intros i Hi.
  unfold el, ty. cbn [snd]. change 32 with (2 * 16). rewrite null_mul_el by (try (apply lane_range; lia); left; reflexivity).
  cbn [bind]. change (2 * 16) with 32.
  assert (cconv (sg, 16) (lane 16 i a) * cconv (sg, 16) (lane 16 i b) = mp sg 16 (lane 16 i a) (lane 16 i b)) as ->.
  { unfold cconv, mp. cbn [fst snd]. destruct sg; auto. rewrite !wrap_lane. reflexivity. }
  eexists. split; reflexivity.
Qed.
Lemma i_mul_hi_ok A sg s a b : valid_arch A = true -> avail_int A 16 s = true -> reg (rbits s) a -> reg (rbits s) b ->
  i_mul_hi A sg s a b = Ok (hi_v sg (rbits s) a b).
Proof.
  intros HV HA Ha Hb. assert (w12 16) as H16 by (left; reflexivity). unfold i_mul_hi. destruct s; cbn [rbits] in *.
  - destruct (use_null A) eqn:EN; [apply null_hi_ok|].
    destruct (use_sse2 A) eqn:E2; [rewrite mulhi_v2; reflexivity|].
    assert (use_avx2 A = false) as HX by (destruct (use_avx2 A) eqn:?; auto; vimp HV).
    destruct (use_neon A) eqn:Ene; [apply unzip_prods; auto using vmull_reg; apply (vmull_prods sg 16); auto|].
    destruct (use_altivec A) eqn:EA; cbn [orb].
    { unfold i_mull16. rewrite EN, E2, Ene, EA. unfold zip_combine. rewrite !i_zip_ok by (auto using mule_reg, mulo_reg). cbn [bind].
      unfold combine2, avail_int. rewrite HX. cbn [bind aget length Nat.ltb Nat.leb nth nth_error].
      apply unzip_prods; auto; try (apply pack_reg; reflexivity). apply (evenodd_prods sg 16 4); auto. }
    destruct (use_msa A) eqn:EM; [|fam HV; vimp HV].
    unfold i_mull16. rewrite EN, E2, Ene, EA, EM.
    destruct (msa_prods sg 16 i_ext_16_32 A a b) as (x & y & E & Rx & Ry & P); auto; try (apply ext16_pair; auto).
    change (2 * 16) with 32 in E. rewrite E. cbn [bind aget length Nat.ltb Nat.leb nth nth_error]. apply unzip_prods; auto.
  - cbn [avail_int] in HA. rewrite HA. rewrite mulhi_v2. reflexivity.
  - assert (use_avx512bw A = true) as -> by exact HA. rewrite mulhi_v2. reflexivity.
Qed.
