From Verif Require Import Proof.PopcntP Proof.PopcntP2.
From Verif Require Import Spec.Counting Model.Popcnt Proof.CppLemmas Proof.BitwiseP Proof.ArithP Proof.ShiftP Proof.SetSplatP
  Proof.MulP5 Proof.ExtractP Proof.ExtractP2 Proof.SplitP.

(** ---------- the scalar code ---------- *)
Lemma c_shr_u w t x c : upr w t -> 0 <= c < wb w -> c_shr (t, x) (c_lit c) = Ok (pt w, Z.shiftr x c).
Proof.
  intros Ht Hc. unfold c_shr. rewrite (promote_upr w) by auto. change (promote (c_lit c)) with (c_int, c). cbn [snd].
  destruct (pt w) as [b v] eqn:E. assert (wb w <= v).
  { unfold pt in E. destruct w; cbn in E; inversion E; cbn; lia. }
  destruct (Z.ltb_spec c 0); [lia|]. destruct (Z.leb_spec v c); [lia|]. reflexivity.
Qed.
Lemma shr_range w x c : 0 <= c -> 0 <= x < 2 ^ w -> 0 <= Z.shiftr x c < 2 ^ w.
Proof.
  intros Hc Hx. rewrite Z.shiftr_div_pow2 by lia. pose proof (pow2_pos c ltac:(lia)). split; [apply Z.div_pos; lia|].
  apply Z.div_lt_upper_bound; nia.
Qed.
Lemma land_range w x y : 0 <= w -> 0 <= x < 2 ^ w -> 0 <= y < 2 ^ w -> 0 <= Z.land x y < 2 ^ w.
Proof. intros. apply (land_reg w); auto. Qed.
Lemma ccast_u w t x : 0 <= x < 2 ^ wb w -> ccast (ut w) (t, x) = (ut w, x).
Proof. intros. unfold ccast. cbn [snd]. rewrite u_cconv by auto. reflexivity. Qed.
Lemma pop_head_ok w n m55 m33 m0f x : wb w = 8 * Z.of_nat n -> m55 = rep n 85 -> m33 = rep n 51 -> m0f = rep n 15 ->
  0 <= x < 2 ^ wb w -> pop_head (ut w) m55 m33 m0f (ut w, x) = Ok (ut w, bytes n x).
Proof.
  intros En -> -> -> Hx. assert (E2 : 256 ^ Z.of_nat n = 2 ^ wb w) by (rewrite En, Z.pow_mul_r by lia; reflexivity).
  assert (Hrep : forall n m, 0 <= m < 256 -> 0 <= rep n m < 256 ^ Z.of_nat n).
  { clear. intros n m Hm. induction n as [|n IH]; [cbn; lia|]. cbn [rep]. rewrite Nat2Z.inj_succ, Z.pow_succ_r by lia. lia. }
  pose proof (Hrep n 85 ltac:(lia)) as R1. pose proof (Hrep n 51 ltac:(lia)) as R2. pose proof (Hrep n 15 ltac:(lia)) as R3. clear Hrep.
  rewrite <- E2 in Hx. destruct (swar n x Hx) as (S1 & S2 & _ & S3 & S4). rewrite E2 in *.
  assert (Hwb : 8 <= wb w) by (destruct w; cbn [wb]; lia).
  unfold pop_head, c_and, c_sub, c_add.
  rewrite (c_shr_u w) by (auto; lia). cbn [bind].
  pose proof (shr_range (wb w) x 1 ltac:(lia) Hx) as B1. pose proof (land_range (wb w) _ _ ltac:(lia) B1 R1) as B2.
  rewrite (carith_u _ w) by auto. cbn [bind]. rewrite (carith_u _ w) by auto. cbn [bind]. fold (st1 (rep n 85) x).
  rewrite ccast_u by auto.
  pose proof (land_range (wb w) _ _ ltac:(lia) S1 R2) as B3.
  rewrite (carith_u _ w) by auto. cbn [bind]. rewrite (c_shr_u w) by (auto; lia). cbn [bind].
  pose proof (shr_range (wb w) _ 2 ltac:(lia) S1) as B4. pose proof (land_range (wb w) _ _ ltac:(lia) B4 R2) as B5.
  rewrite (carith_u _ w) by auto. cbn [bind]. rewrite (carith_u _ w) by auto. cbn [bind].
  fold (st2 (rep n 51) (st1 (rep n 85) x)). rewrite ccast_u by auto.
  rewrite (c_shr_u w) by (auto; lia). cbn [bind]. pose proof (shr_range (wb w) _ 4 ltac:(lia) S2) as B6.
  rewrite (carith_u _ w) by auto. cbn [bind]. fold (st3 (st2 (rep n 51) (st1 (rep n 85) x))).
  pose proof (land_range (wb w) _ _ ltac:(lia) S3 R3) as B7. rewrite (carith_u _ w) by auto. cbn [bind].
  rewrite ccast_u by auto. rewrite S4. reflexivity.
Qed.
Lemma el_popcnt_ok w x : 0 <= x < 2 ^ wb w -> el_popcnt w (ut w, x) = Ok (ut w, s_popcnt (wb w) x).
Proof.
  intros Hx. rewrite s_popcnt_cnt. destruct w; cbn [wb el_popcnt] in *.
  - pose proof (pop_head_ok W8 1 0x55 0x33 0x0f x eq_refl eq_refl eq_refl eq_refl Hx) as E. change (ut W8) with c_u8 in E. change (ut W8) with c_u8.
    rewrite E. cbn [bytes]. rewrite cnt8_mod. change (Z.to_nat 8) with 8%nat. rewrite Z.mul_0_r, Z.add_0_r. reflexivity.
  - pose proof (pop_head_ok W16 2 0x5555 0x3333 0x0f0f x eq_refl eq_refl eq_refl eq_refl Hx) as E. change (ut W16) with c_u16 in E. change (ut W16) with c_u16.
    rewrite E. cbn [bind]. destruct (fin16 x) as (F1 & F2). pose proof (bytes_range 2 x) as B. set (p := bytes 2 x) in *. clearbody p.
    change (256 ^ Z.of_nat 2) with (2 ^ wb W16) in B. change c_u16 with (ut W16).
    rewrite (c_shr_u W16) by (auto; cbn [wb]; lia). cbn [bind].
    pose proof (shr_range (wb W16) _ 8 ltac:(lia) B) as B1.
    assert (B2 : 0 <= up 8 p < 2 ^ wb W16) by (cbn [wb]; rewrite <- F1; apply wrap_range; lia).
    unfold c_add, c_and. rewrite (carith_u _ W16) by auto. cbn [bind]. fold (up 8 p). rewrite ccast_u by auto.
    change (c_lit 255) with (pt W16, 255).
    pose proof (land_range (wb W16) (up 8 p) 255 ltac:(cbn [wb]; lia) B2 ltac:(vm_compute; split; [discriminate|reflexivity])) as B3.
    rewrite (carith_u _ W16) by (first [apply upr_ut | apply upr_pt | exact B2 | exact B3 | vm_compute; split; [discriminate|reflexivity]]). cbn [bind].
    rewrite ccast_u by auto. rewrite F2, csum_cnt. reflexivity.
  - pose proof (pop_head_ok W32 4 0x55555555 0x33333333 0x0f0f0f0f x eq_refl eq_refl eq_refl eq_refl Hx) as E. change (ut W32) with c_u32 in E. change (ut W32) with c_u32.
    rewrite E. cbn [bind]. pose proof (mul32 x) as M. pose proof (bytes_range 4 x) as B. set (p := bytes 4 x) in *. clearbody p.
    unfold c_mul, c_lit. rewrite (carith_gen c_u32) by (first [reflexivity | apply fits_spec; exact B]). cbn [bind].
    change (cres c_u32 (p * 16843009)) with (Ok (ut W32, wrap 32 (p * 16843009))). cbn [bind].
    rewrite (c_shr_u W32) by (auto; cbn [wb]; lia). cbn [bind]. rewrite M. change c_u32 with (ut W32). rewrite ccast_u.
    + rewrite csum_cnt. reflexivity.
    + rewrite csum_cnt. pose proof (cnt_range (8 * 4) x). cbn [wb]. change (Z.of_nat (8 * 4)) with 32 in *. lia.
  - pose proof (pop_head_ok W64 8 0x5555555555555555 0x3333333333333333 0x0f0f0f0f0f0f0f0f x eq_refl eq_refl eq_refl eq_refl Hx) as E. change (ut W64) with c_u64 in E. change (ut W64) with c_u64.
    rewrite E. cbn [bind]. pose proof (mul64 x) as M. pose proof (bytes_range 8 x) as B. set (p := bytes 8 x) in *. clearbody p.
    unfold c_mul. rewrite (carith_gen c_u64) by (first [reflexivity | apply fits_spec; exact B]). cbn [bind].
    change (cres c_u64 (p * 72340172838076673)) with (Ok (ut W64, wrap 64 (p * 72340172838076673))). cbn [bind].
    rewrite (c_shr_u W64) by (auto; cbn [wb]; lia). cbn [bind]. rewrite M. change c_u64 with (ut W64). rewrite ccast_u.
    + rewrite csum_cnt. reflexivity.
    + rewrite csum_cnt. pose proof (cnt_range (8 * 8) x). cbn [wb]. change (Z.of_nat (8 * 8)) with 64 in *. change (2 ^ 64) with 18446744073709551616. lia.
Qed.
Lemma null_popcnt_ok w a : nloop (ut w) 128 (fun i => el_popcnt w (el (ut w) a i)) = Ok (popv (wb w) 128 a).
Proof.
  apply (nloop_v1 (ut w) 128 (el_popcnt w)); [apply (wok_lib w R128)|]. intros x Hx. rewrite u_cconv by auto. rewrite el_popcnt_ok by auto.
  eexists. split; reflexivity.
Qed.

(** ---------- the instructions ---------- *)
Lemma native_ok w a : wok w 128 = true -> v1 w 128 (bits_set w) a = popv w 128 a.
Proof. intros. apply v1_ext; auto. intros. rewrite bits_set_cnt, s_popcnt_cnt. reflexivity. Qed.
Lemma cnt_wrap w x : 0 <= w -> wrap w (cnt (Z.to_nat w) x) = cnt (Z.to_nat w) x.
Proof.
  intros Hw. apply wrap_small. pose proof (cnt_range (Z.to_nat w) x). rewrite Z2Nat.id in * by lia.
  pose proof (Z.pow_gt_lin_r 2 w ltac:(lia) Hw). lia.
Qed.
Lemma cnt_double w x y : 0 <= w -> 0 <= x < 2 ^ w -> cnt (Z.to_nat (w * 2)) (x + y * 2 ^ w) = cnt (Z.to_nat w) x + cnt (Z.to_nat w) y.
Proof.
  intros Hw Hx. replace (Z.to_nat (w * 2)) with (Z.to_nat w + Z.to_nat w)%nat by lia. rewrite cnt_app. rewrite Z2Nat.id by lia.
  f_equal.
  - rewrite (Z.mul_comm y). rewrite <- (Z2Nat.id w) at 2 by lia. apply cnt_low.
  - f_equal. rewrite (Z.mul_comm y). apply div_lo; auto.
Qed.
Lemma paddl_ok w a : wok w 128 = true -> wok (2 * w) 128 = true -> vpaddlq_u w (popv w 128 a) = popv (2 * w) 128 a.
Proof.
  intros H1 H2. destruct (wok_spec _ _ H1) as (Hw & _ & E1 & _). destruct (wok_spec _ _ H2) as (_ & _ & E2 & _).
  assert (E3 : 128 / w = 2 * (128 / (2 * w))) by (apply (Z.mul_reg_l _ _ w); [lia|]; lia).
  apply eq_v1; auto; [apply pack_reg; auto|]. intros i Hi. unfold vpaddlq_u. rewrite lane_pack by auto. unfold popv.
  rewrite !lane_v1 by (auto; lia). f_equal. replace (2 * w) with (w * 2) by lia. rewrite lane_double by lia.
  rewrite !s_popcnt_cnt, !cnt_wrap by lia. rewrite cnt_double by (try lia; apply lane_range; lia). reflexivity.
Qed.
Lemma lane8_S j x : 0 <= j -> lane 8 (j + 1) x = lane 8 j (x / 256).
Proof.
  intros Hj. apply (bits_ext 8); [lia|apply lane_range; lia|apply lane_range; lia|]. intros k Hk. rewrite !testbit_lane by lia.
  destruct (k <? 8); [|reflexivity]. change 256 with (2 ^ 8). rewrite Z.div_pow2_bits by lia. cbn [andb]. f_equal. lia.
Qed.
Lemma lane8_0 x : lane 8 0 x = x mod 256. Proof. apply lane_0; lia. Qed.
Lemma csum_lanes n : forall x, csum n x = fold_right Z.add 0 (map (fun j => cnt 8 (lane 8 (Z.of_nat j) x)) (seq 0 n)).
Proof.
  induction n as [|n IH]; intros x; [reflexivity|]. cbn [csum seq map fold_right]. rewrite <- lane8_0. f_equal. rewrite IH, <- seq_shift, map_map.
  f_equal. apply map_ext. intros j. rewrite Nat2Z.inj_succ, <- Z.add_1_r, lane8_S by lia. reflexivity.
Qed.
Lemma sad_ok R a : wok 8 R = true -> wok 64 R = true -> mm_sad_epu8 R (popv 8 R a) 0 = popv 64 R a.
Proof.
  intros H1 H2. destruct (wok_spec _ _ H1) as (_ & _ & E1 & _). destruct (wok_spec _ _ H2) as (_ & _ & E2 & _).
  apply eq_v1; auto; [apply pack_reg; auto|]. intros i Hi. unfold mm_sad_epu8. rewrite lane_pack by auto. f_equal.
  rewrite s_popcnt_cnt. change (Z.to_nat 64) with (8 * 8)%nat. rewrite <- csum_cnt, csum_lanes. unfold zrange. rewrite map_map. f_equal.
  apply map_ext_in. intros j Hj. apply in_seq in Hj. change (Z.to_nat 8) with 8%nat in Hj.
  rewrite lane_of_zero by lia. unfold popv. rewrite lane_v1 by (auto; lia). rewrite s_popcnt_cnt, cnt_wrap by lia.
  change (Z.to_nat 8) with 8%nat. pose proof (c8 (lane 8 (8 * i + Z.of_nat j) a)). rewrite Z.sub_0_r, Z.abs_eq by lia. f_equal.
  change 64 with (8 * 8). rewrite (lane_lane 8 8 i (Z.of_nat j)) by lia. f_equal. lia.
Qed.
Lemma ext_ok A e i a : valid_arch A = true -> reg 128 a -> 0 <= i < 128 / eb e -> ext A e i a = Ok (lane (eb e) i a).
Proof.
  intros HV Ha Hi. unfold ext. rewrite (i_extract_ok A 0 HV R128 eq_refl) by (first [exact Ha | exact Hi | discriminate | destruct e; reflexivity]). reflexivity.
Qed.
Lemma ins16_ok A i r x : valid_arch A = true -> reg 128 r -> 0 <= i < 8 -> ins16 A i r x = Ok (ins 16 128 i (wrap 16 x) r).
Proof.
  intros HV Hr Hi. unfold ins16. rewrite i_insert_ok; auto. apply wrap_range. cbn [eb]. lia.
Qed.
Lemma cvtsi_lanes c k : 0 <= c < 65536 -> 0 <= k -> lane 16 k (mm_cvtsi32 c) = if k =? 0 then c else 0.
Proof.
  intros Hc Hk. unfold mm_cvtsi32. rewrite wrap_small by (change (2 ^ 32) with 4294967296; lia).
  apply (bits_ext 16); [lia|apply lane_range; lia|destruct (k =? 0); change (2 ^ 16) with 65536; lia|]. intros j Hj. rewrite testbit_lane by lia.
  destruct (Z.ltb_spec j 16); [|lia]. cbn [andb]. destruct (Z.eqb_spec k 0) as [->|]; [f_equal|].
  rewrite Z.bits_0. rewrite <- (wrap_small 16 c) by (change (2 ^ 16) with 65536; lia). rewrite testbit_wrap by lia.
  destruct (Z.ltb_spec (16 * k + j) 16); [lia|reflexivity].
Qed.
Lemma cvtsi_reg c : reg 128 (mm_cvtsi32 c).
Proof. unfold mm_cvtsi32. pose proof (wrap_range 32 c ltac:(lia)). unfold reg. change (2 ^ 128) with (2 ^ 32 * 2 ^ 96). pose proof (pow2_pos 96 ltac:(lia)). nia. Qed.
Lemma small_16 w c i : w = 32 \/ w = 64 -> 0 <= c <= 64 -> 0 <= i -> lane 16 i c = if i =? 0 then c else 0.
Proof.
  intros _ Hc Hi. rewrite <- (cvtsi_lanes c i) by lia. unfold mm_cvtsi32. rewrite wrap_small by (change (2 ^ 32) with 4294967296; lia). reflexivity.
Qed.
Lemma insn32_ok A a : valid_arch A = true -> reg 128 a -> popcnt_insn32 A a = Ok (popv 32 128 a).
Proof.
  intros HV Ha. unfold popcnt_insn32. rewrite !(ext_ok A I32) by (first [exact HV | exact Ha | split; vm_compute; [discriminate|reflexivity]]). cbn [bind eb]. unfold mm_popcnt. rewrite !bits_set_cnt.
  set (C := fun k => cnt (Z.to_nat 32) (lane 32 k a)). 
  change (cnt (Z.to_nat 32) (lane 32 0 a)) with (C 0). change (cnt (Z.to_nat 32) (lane 32 1 a)) with (C 1).
  change (cnt (Z.to_nat 32) (lane 32 2 a)) with (C 2). change (cnt (Z.to_nat 32) (lane 32 3 a)) with (C 3).
  assert (HC : forall k, 0 <= C k <= 32) by (intros k; apply (cnt_range 32)).
  assert (W : wok 16 128 = true) by reflexivity.
  rewrite ins16_ok by (first [exact HV | apply cvtsi_reg | lia]). cbn [bind]. rewrite ins16_ok by (first [exact HV | apply ins_reg; reflexivity | lia]). cbn [bind]. rewrite ins16_ok by (first [exact HV | apply ins_reg; reflexivity | lia]).
  f_equal. assert (W32' : wok 32 128 = true) by reflexivity.
  apply (reg_lanes 16 128); auto; [apply ins_reg; auto|apply v1_reg; auto|]. intros i Hi. change (128 / 16) with 8 in Hi.
  rewrite !lane_ins by auto. rewrite cvtsi_lanes by (try lia; pose proof (HC 0); lia).
  rewrite (lane_sub 16 2) by lia. change (16 * 2) with 32. unfold popv. 
  assert (Hd : 0 <= i / 2 < 4) by zl. rewrite lane_v1 by auto. rewrite s_popcnt_cnt, cnt_wrap by lia.
  pose proof (HC (i / 2)) as Hk. pose proof (Z.mod_pos_bound i 2 eq_refl). unfold C in *.
  rewrite (small_16 32) by (auto; lia). clear Hk Hd.
  rewrite !wrap_wrap. rewrite !(wrap_small 16 (cnt _ _)) by (change (2 ^ 16) with 65536; match goal with |- 0 <= cnt _ (lane 32 ?k a) < _ => pose proof (HC k); lia end).
  assert (i = 0 \/ i = 1 \/ i = 2 \/ i = 3 \/ i = 4 \/ i = 5 \/ i = 6 \/ i = 7) as D by lia.
  destruct D as [-> |[-> |[-> |[-> |[-> |[-> |[-> | ->]]]]]]]; reflexivity.
Qed.
Lemma fin_ok A a c0 c1 : valid_arch A = true -> c0 = cnt 64 (lane 64 0 a) -> c1 = cnt 64 (lane 64 1 a) ->
  ins16 A 4 (mm_cvtsi32 c0) c1 = Ok (popv 64 128 a).
Proof.
  intros HV -> ->. rewrite ins16_ok by (first [exact HV | apply cvtsi_reg | lia]). f_equal.
  assert (HC : forall k, 0 <= cnt 64 (lane 64 k a) <= 64) by (intros k; apply (cnt_range 64)).
  assert (W : wok 16 128 = true) by reflexivity. assert (W' : wok 64 128 = true) by reflexivity.
  apply (reg_lanes 16 128); auto; [apply ins_reg; auto|apply v1_reg; auto|]. intros i Hi. change (128 / 16) with 8 in Hi.
  rewrite !lane_ins by auto. rewrite cvtsi_lanes by (try lia; pose proof (HC 0); lia).
  rewrite (lane_sub 16 4) by lia. change (16 * 4) with 64. unfold popv. 
  assert (Hd : 0 <= i / 4 < 2) by zl. rewrite lane_v1 by auto. rewrite s_popcnt_cnt, cnt_wrap by lia. change (Z.to_nat 64) with 64%nat.
  pose proof (HC (i / 4)) as Hk. pose proof (Z.mod_pos_bound i 4 eq_refl).
  rewrite (small_16 64) by (auto; lia). clear Hk Hd.
  rewrite !wrap_wrap. rewrite !(wrap_small 16 (cnt _ _)) by (change (2 ^ 16) with 65536; match goal with |- 0 <= cnt _ (lane 64 ?k a) < _ => pose proof (HC k); lia end).
  assert (i = 0 \/ i = 1 \/ i = 2 \/ i = 3 \/ i = 4 \/ i = 5 \/ i = 6 \/ i = 7) as D by lia.
  destruct D as [-> |[-> |[-> |[-> |[-> |[-> |[-> | ->]]]]]]]; reflexivity.
Qed.
Lemma insn64_ok A a : valid_arch A = true -> reg 128 a -> popcnt_insn64 A a = Ok (popv 64 128 a).
Proof.
  intros HV Ha. unfold popcnt_insn64. destruct (use_64 A).
  - rewrite !(ext_ok A I64) by (first [exact HV | exact Ha | split; vm_compute; [discriminate|reflexivity]]). cbn [bind eb]. unfold mm_popcnt. rewrite !bits_set_cnt. apply fin_ok; auto.
  - rewrite !(ext_ok A I32) by (first [exact HV | exact Ha | split; vm_compute; [discriminate|reflexivity]]). cbn [bind eb]. unfold mm_popcnt. rewrite !bits_set_cnt.
    assert (E : forall k, 0 <= k -> wrap 32 (cnt (Z.to_nat 32) (lane 32 (2 * k) a) + cnt (Z.to_nat 32) (lane 32 (2 * k + 1) a)) = cnt 64 (lane 64 k a)).
    { intros k Hk. change (lane 64 k a) with (lane (32 * 2) k a). rewrite lane_double by lia. change 64%nat with (Z.to_nat (32 * 2)).
      rewrite cnt_double by (try lia; apply lane_range; lia). apply wrap_small.
      pose proof (cnt_range 32 (lane 32 (2 * k) a)). pose proof (cnt_range 32 (lane 32 (2 * k + 1) a)). change (Z.to_nat 32) with 32%nat. change (2 ^ 32) with 4294967296. lia. }
    apply fin_ok; auto; [apply (E 0)|apply (E 1)]; lia.
Qed.

(** ---------- the ladder ---------- *)
Lemma i_popcnt_64_ok A a : valid_arch A = true -> reg 128 a -> i_popcnt_64 A a = Ok (popv 64 128 a).
Proof.
  intros HV Ha. unfold i_popcnt_64. destruct (use_null A); [apply (null_popcnt_ok W64)|].
  destruct (use_popcnt A); [apply insn64_ok; auto|].
  destruct (use_sse2 A); [rewrite (emul8_ok A R128) by auto; cbn [bind]; f_equal; apply sad_ok; reflexivity|].
  destruct (use_neon A).
  { unfold vcntq_u8. rewrite native_ok by reflexivity. rewrite paddl_ok by reflexivity. rewrite paddl_ok by reflexivity.
    rewrite paddl_ok by reflexivity. reflexivity. }
  destruct (use_vsx207 A); [apply f_equal, native_ok; reflexivity|].
  destruct (use_msa A); [apply f_equal, native_ok; reflexivity|].
  apply (emul64_ok A R128); auto.
Qed.
Lemma i_popcnt_ok A w s a : valid_arch A = true -> avail_int A (wb w) s = true -> reg (rbits s) a ->
  i_popcnt A w s a = Ok (popv (wb w) (rbits s) a).
Proof.
  intros HV HA Ha.
  assert (H16 : avail_int A (wb w) s = true -> wb w <= 16 -> avail_int A 16 s = true) by (destruct w, s; cbn; auto; lia).
  unfold i_popcnt. destruct w; cbn [wb] in *.
  - specialize (H16 HA ltac:(lia)). destruct s; [|cbn in HA; rewrite HA; apply emul8_ok; auto..].
    destruct (use_null A); [apply (null_popcnt_ok W8)|]. destruct (use_neon A); [apply f_equal, native_ok; reflexivity|].
    destruct (use_vsx207 A); [apply f_equal, native_ok; reflexivity|]. destruct (use_msa A); [apply f_equal, native_ok; reflexivity|]. apply (emul8_ok A R128); auto.
  - destruct s; [|cbn in HA; rewrite HA; apply emul16_ok; auto..].
    destruct (use_null A); [apply (null_popcnt_ok W16)|].
    destruct (use_neon A); [unfold vcntq_u8; rewrite native_ok by reflexivity; rewrite paddl_ok by reflexivity; reflexivity|].
    destruct (use_vsx207 A); [apply f_equal, native_ok; reflexivity|]. destruct (use_msa A); [apply f_equal, native_ok; reflexivity|]. apply (emul16_ok A R128); auto.
  - destruct s; [|cbn in HA; rewrite HA; apply emul32_ok; auto..].
    destruct (use_null A); [apply (null_popcnt_ok W32)|]. destruct (use_popcnt A); [apply insn32_ok; auto|].
    destruct (use_neon A); [unfold vcntq_u8; rewrite native_ok by reflexivity; rewrite paddl_ok by reflexivity; rewrite paddl_ok by reflexivity; reflexivity|].
    destruct (use_vsx207 A); [apply f_equal, native_ok; reflexivity|]. destruct (use_msa A); [apply f_equal, native_ok; reflexivity|]. apply (emul32_ok A R128); auto.
  - destruct s; [apply i_popcnt_64_ok; auto| |].
    + cbn in HA. rewrite HA. destruct (use_popcnt A && use_64 A).
      * rewrite !i_popcnt_64_ok by (auto; apply lane_range; lia). cbn [bind]. f_equal. unfold mm_combine128, mm_extract128, popv.
        assert (wok 64 256 = true) by reflexivity. assert (wok 128 256 = true) by reflexivity. cbn [rbits].
        apply eq_v1; [auto|apply pack_reg; auto|]. intros i Hi. change (256 / 64) with 4 in Hi.
        rewrite (lane_sub 64 2) by lia. change (64 * 2) with 128. assert (0 <= i / 2 < 2) by zl. rewrite lane_pack by auto.
        pose proof (Z.mod_pos_bound i 2 eq_refl). 
        assert (Hr : forall x, reg 128 (v1 64 128 (s_popcnt 64) x)) by (intros; apply v1_reg; reflexivity).
        assert (E : forall k, 0 <= k < 2 -> wrap 128 (if k =? 0 then v1 64 128 (s_popcnt 64) (lane 128 0 a) else v1 64 128 (s_popcnt 64) (lane 128 1 a)) = v1 64 128 (s_popcnt 64) (lane 128 k a)).
        { intros k Hk. assert (k = 0 \/ k = 1) as [-> | ->] by lia; cbn [Z.eqb]; apply wrap_small; apply Hr. }
        rewrite E by auto. rewrite lane_v1 by (try reflexivity; change (128 / 64) with 2; auto). f_equal. f_equal.
        change 128 with (64 * 2). rewrite lane_lane by lia. f_equal. zl.
      * rewrite emul8_ok by auto. cbn [bind]. f_equal. apply sad_ok; reflexivity.
    + cbn in HA. rewrite HA. destruct (use_avx512bw A) eqn:EB.
      * rewrite emul8_ok by auto. cbn [bind]. f_equal. apply sad_ok; reflexivity.
      * apply emul64_ok; auto.
Qed.
