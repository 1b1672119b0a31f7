(** C55: conversions between floating-point numbers and 64-bit integers. *)
From Verif Require Import Proof.FloatsP3 Proof.FloatRoundP Proof.FArithP Proof.CastP Proof.FConvP Proof.FConvP2 Proof.FConvP3 Proof.ConvertP Proof.FConv64P Proof.FConv64P5 Proof.FConvI64P2 Model.FConv Model.FConv64 Model.FConvI64 Thm.T_Convert Thm.T_FConv64.
From Coq Require Import Lia.

(** ------------------- float64 to int64 and uint64 ------------------- *)
Lemma to_i64_d_rel A sg T dom (P : Z -> Z -> Prop) : valid_arch A = true -> vsize T -> has_i64_to_f64 A = true ->
  (use_null A = true -> forall x, dom x = true -> fits64 sg 64 x = true) -> (forall x, dom x = true -> P x (d_to_i64 A sg x)) ->
  conv_rel 64 64 T T (vregf A T) (vreg A 64 T) (to_int64_d A sg T) dom P.
Proof.
  intros HV HT HH HN HP. destruct (fi_regs A T HV HT) as [HA _]. rewrite <- (i64_regs A HV HH T). unfold to_int64_d. rewrite HH.
  apply lift_conv1; [apply w64|]. intros a Ha Hd.
  rewrite (i_to_int64_d_ok A HV HH sg (vregf A T) a HA).
  - eexists. split; [reflexivity|]. split; [apply v1_reg, w64|]. intros i Hi. rewrite lane_v1 by (auto using w64).
    rewrite wrap_small by (apply d_to_i64_ran; auto). apply HP. apply Hd. exact Hi.
  - intros EN. apply elems_dom; [apply w64|]. intros i Hi. apply HN; auto.
Qed.
Lemma d_to_i64_fits A sg x : fits64 sg 64 x = true -> d_to_i64 A sg x = f_int 64 x mod 2 ^ 64.
Proof.
  intros H. unfold d_to_i64. rewrite (cvtt64_fits sg 64 x H), (sat64_fits sg x H). destruct (use_avx512dq A), (use_null A); reflexivity.
Qed.
(** the integer part, where it is representable, on every architecture that has the conversion *)
Theorem to_int64_double_partial : forall A sg T, valid_arch A = true -> vsize T -> has_i64_to_f64 A = true ->
  conv_rel 64 64 T T (vregf A T) (vreg A 64 T) (to_int64_d A sg T) (fits64 sg 64) (is (fun x => f_int 64 x mod 2 ^ 64)).
Proof. intros A sg T HV HT HH. apply to_i64_d_rel; auto. intros x H. unfold is. apply d_to_i64_fits. exact H. Qed.
(** "SSE specific: If the value can not be represented by int64_t, 0x8000000000000000 is returned" *)
Theorem to_int64_double_x86_spec : forall A T, valid_arch A = true -> vsize T -> use_avx512dq A = true ->
  conv_rel 64 64 T T (vregf A T) (vreg A 64 T) (to_int64_d A true T) all_lanes
    (is (fun x => if fits64 true 64 x then f_int 64 x mod 2 ^ 64 else 0x8000000000000000)).
Proof.
  intros A T HV HT HD. assert (HH : has_i64_to_f64 A = true) by (unfold has_i64_to_f64; rewrite HD, orb_true_r; reflexivity).
  apply to_i64_d_rel; auto.
  - intros HN. exfalso. destruct (has_cases A HV HH) as [(_ & _ & _ & _ & _ & E & _)|(E & _)]; [rewrite HN in E|rewrite HD in E]; discriminate E.
  - intros x _. unfold is, d_to_i64, cvtt64. rewrite HD. reflexivity.
Qed.
(** The same is said of uint64_t, but there the result is 0xffffffffffffffff. *)
Theorem to_uint64_double_x86_spec : forall A T, valid_arch A = true -> vsize T -> use_avx512dq A = true ->
  conv_rel 64 64 T T (vregf A T) (vreg A 64 T) (to_int64_d A false T) all_lanes
    (is (fun x => if fits64 false 64 x then f_int 64 x mod 2 ^ 64 else 0xffffffffffffffff)).
Proof.
  intros A T HV HT HD. assert (HH : has_i64_to_f64 A = true) by (unfold has_i64_to_f64; rewrite HD, orb_true_r; reflexivity).
  apply to_i64_d_rel; auto.
  - intros HN. exfalso. destruct (has_cases A HV HH) as [(_ & _ & _ & _ & _ & E & _)|(E & _)]; [rewrite HN in E|rewrite HD in E]; discriminate E.
  - intros x _. unfold is, d_to_i64, cvtt64. rewrite HD. reflexivity.
Qed.
Theorem to_uint64_double_x86_refuted :
  fits64 false 64 0xbff0000000000000 = false /\ to_int64_d arch_avx512dq false 512 [0xbff0000000000000] = Ok [0xffffffffffffffff].
Proof. split; vm_compute; reflexivity. Qed.
(** 64-bit ARM, POWER and MIPS: the integer part is clamped to the range; NaN gives 0 *)
Theorem to_int64_double_saturating_spec : forall A sg T, valid_arch A = true -> vsize T -> use_neon64 A || use_vsx207 A || use_msa A = true ->
  conv_rel 64 64 T T (vregf A T) (vreg A 64 T) (to_int64_d A sg T) all_lanes (clamped64 sg 64).
Proof.
  intros A sg T HV HT HS. assert (HH : has_i64_to_f64 A = true).
  { unfold has_i64_to_f64. destruct (use_null A), (use_avx512dq A), (use_neon64 A), (use_vsx207 A), (use_msa A); auto. }
  assert (HX : use_avx512dq A = false /\ use_null A = false).
  { revert HS. unfold use_neon64. fam HV; rw_flags; cbn [andb orb]; intros HI; try discriminate HI; try fcontra; (split; [|reflexivity]); destruct (use_avx512dq A) eqn:ED; try reflexivity; exfalso; destruct (use_avx512f A) eqn:E5; try (vimp HV); pose proof (avx_sse A HV (avx512_avx A HV E5)) as HQ; fcontra. }
  destruct HX as [HX HN]. apply to_i64_d_rel; auto; [rewrite HN; discriminate|].
  intros x _. unfold d_to_i64. rewrite HX, HN. apply sat64_clamped.
Qed.
Theorem to_int64_double_refuted :
  valid_arch arch_avx2 = true /\ fits64 true 64 0 = true /\ to_int64_d arch_avx2 true 128 [0] = NotImpl /\
  to_int64_d arch_null true 128 [0x43e0000000000000] = UB /\ fits64 true 64 0x43e0000000000000 = false.
Proof. split; [reflexivity|]. split; [vm_compute; reflexivity|]. split; [reflexivity|]. split; vm_compute; reflexivity. Qed.

(** ------------------- float32 to int64 and uint64 ------------------- *)
(** with AVX512DQ the vectors of 8 elements need AVX512VL *)
Definition has_f32_to_i64 (A : arch) (T : Z) : bool := has_i64_to_f64 A && (negb (use_avx512dq A) || use_avx512vl A || negb (T =? 256)).
Lemma to_i64_f_rel A sg T dom (P : Z -> Z -> Prop) : valid_arch A = true -> vsize T -> has_f32_to_i64 A T = true ->
  (use_null A = true -> forall x, dom x = true -> fits64 true 32 x = true) -> (forall x, dom x = true -> P x (f_to_i64 A sg x)) ->
  conv_rel 32 64 T (2 * T) (vregf A T) (vreg A 64 (2 * T)) (to_int64_f A sg T) dom P.
Proof.
  intros HV HT HH HN HP. apply andb_prop in HH as [HH HL]. destruct (fi_regs A T HV HT) as [HA _]. rewrite <- (i64_regs A HV HH), (dreg_flt A HV T HT).
  unfold to_int64_f. rewrite HH. destruct (vsize_div A T HT) as [HD HT0].
  apply lift_up_dom; [destruct (vregf A T); reflexivity|]. intros a Ha Hd.
  destruct (i_to_int64_f_ok A HV HH sg (vregf A T) a HA Ha) as (l & El & Wl & Ll & E).
  - intros EN. apply forallb_forall. intros x Hx. apply HN; auto. rewrite forallb_forall in Hd. auto.
  - intros ED. rewrite ED in HL. cbn [negb orb] in HL. destruct (use_avx512vl A); [left; reflexivity|right]. cbn [orb] in HL. apply Bool.negb_true_iff, Z.eqb_neq in HL.
    destruct (has_cases A HV HH) as [(_ & E5 & _)|(E & _)]; [|rewrite ED in E; discriminate E]. unfold vregf, fast_flt. rewrite E5.
    destruct (Z.leb_spec T 128); [discriminate|]. destruct (Z.leb_spec T 256); [|discriminate]. exfalso. apply HL.
    destruct HT as [k ->]. destruct k; [change (2 ^ Z.of_nat 0) with 1 in *; lia|]. rewrite Nat2Z.inj_succ, Z.pow_succ_r in * by lia. assert (0 < 2 ^ Z.of_nat k) by (apply Z.pow_pos_nonneg; lia). lia.
  - exists l. split; auto. split; auto. split; auto. rewrite E. apply Forall2_map_in. intros x Hx. apply HP. rewrite forallb_forall in Hd. auto.
Qed.
Lemma f_to_i64_fits A sg x : fits64 sg 32 x = true -> f_to_i64 A sg x = f_int 32 x mod 2 ^ 64.
Proof.
  intros H. unfold f_to_i64. rewrite (cvtt64_fits sg 32 x H). rewrite sat64_fits by (rewrite fits64_widen; exact H).
  rewrite f_int_widen by (apply (fits64_parts sg 32 x H)). destruct (use_avx512dq A), (use_null A); reflexivity.
Qed.
Theorem to_int64_float_partial : forall A T, valid_arch A = true -> vsize T -> has_f32_to_i64 A T = true ->
  conv_rel 32 64 T (2 * T) (vregf A T) (vreg A 64 (2 * T)) (to_int64_f A true T) (fits64 true 32) (is (fun x => f_int 32 x mod 2 ^ 64)).
Proof. intros A T HV HT HH. apply to_i64_f_rel; auto. intros x H. unfold is. apply f_to_i64_fits. exact H. Qed.
(** without SIMD the number must fit into int64_t also when converting to uint64_t *)
Theorem to_uint64_float_partial : forall A T, valid_arch A = true -> vsize T -> has_f32_to_i64 A T = true ->
  conv_rel 32 64 T (2 * T) (vregf A T) (vreg A 64 (2 * T)) (to_int64_f A false T) (fun x => fits64 false 32 x && (negb (use_null A) || fits64 true 32 x)) (is (f_int 32)).
Proof.
  intros A T HV HT HH. apply to_i64_f_rel; auto.
  - intros EN x H. rewrite EN in H. apply andb_prop in H as [_ H]. exact H.
  - intros x H. apply andb_prop in H as [H _]. unfold is. rewrite (f_to_i64_fits A false x H). destruct (fits64_parts false 32 x H) as [_ HI]. cbn iota in HI. apply Z.mod_small. lia.
Qed.
Theorem to_int64_float_refuted :
  fits64 false 32 0x5f000000 = true /\ to_int64_f arch_null false 128 [0x5f000000] = UB /\ to_int64_f arch_neon64 false 128 [0x5f000000] = Ok [2 ^ 63; 0] /\
  has_i64_to_f64 arch_avx512dq = true /\ to_int64_f arch_avx512dq true 256 [0] = NotImpl /\ to_int64_f arch_avx512dq true 128 [0x3f800000] = Ok [1].
Proof. split; [vm_compute; reflexivity|]. split; [vm_compute; reflexivity|]. split; [vm_compute; reflexivity|]. split; [reflexivity|]. split; [reflexivity|]. vm_compute; reflexivity. Qed.
(** 64-bit ARM, POWER and MIPS clamp *)
Theorem to_int64_float_saturating_spec : forall A sg T, valid_arch A = true -> vsize T -> use_neon64 A || use_vsx207 A || use_msa A = true ->
  conv_rel 32 64 T (2 * T) (vregf A T) (vreg A 64 (2 * T)) (to_int64_f A sg T) all_lanes (clamped64 sg 32).
Proof.
  intros A sg T HV HT HS.
  assert (HX : use_avx512dq A = false /\ use_null A = false).
  { revert HS. unfold use_neon64. fam HV; rw_flags; cbn [andb orb]; intros HI; try discriminate HI; try fcontra; (split; [|reflexivity]); destruct (use_avx512dq A) eqn:ED; try reflexivity; exfalso; destruct (use_avx512f A) eqn:E5; try (vimp HV); pose proof (avx_sse A HV (avx512_avx A HV E5)) as HQ; fcontra. }
  assert (HH : has_f32_to_i64 A T = true).
  { unfold has_f32_to_i64, has_i64_to_f64. destruct HX as [-> ->]. cbn [orb negb]. rewrite HS. reflexivity. }
  destruct HX as [HX HN]. apply to_i64_f_rel; auto; [rewrite HN; discriminate|].
  intros x _. unfold f_to_i64. rewrite HX, HN. apply sat64_widen.
Qed.

(** ------------------- int64 and uint64 to float32 ------------------- *)
Definition dom53 (sg : bool) (x : Z) : bool := Z.abs (int64_of sg x) <=? 2 ^ 53.
(** rounded once: 128 bits without SIMD, or AVX512DQ up to 512 bits *)
Definition direct (A : arch) (T : Z) : bool := (use_null A && (T =? 128)) || (use_avx512dq A && ((T =? 128) && use_avx512vl A || (T =? 256) || (T =? 512))).
Lemma cv32_ran n : 0 <= f_of_int 32 n < 2 ^ 32.
Proof. exact (of_int_ran false n). Qed.
Lemma cv32_nearest sg x : nearest_f32 (int64_of sg) x (f_of_int 32 (int64_of sg x)).
Proof. destruct (of_int_nearest false (int64_of sg x)) as [H1 H2]. change (fw false) with 32 in *. split; [exact H2|exact H1]. Qed.
Lemma d_regs A T : valid_arch A = true -> has_i64_to_f64 A = true -> vsize T -> vreg A 64 (2 * T) = dreg A (vregf A T).
Proof. intros HV HH HT. rewrite <- (i64_regs A HV HH). apply dreg_flt; auto. Qed.
Lemma one_reg s va : wfv s va -> Z.of_nat (length va) * rbits s = rbits s -> exists a, va = [a] /\ reg (rbits s) a.
Proof.
  intros Wa La. assert (0 < rbits s) by (destruct s; reflexivity). destruct va as [|a [|b va]]; [cbn [length] in La; lia| |cbn [length] in La; exfalso; nia].
  exists a. split; [reflexivity|]. apply wfv_cons in Wa. apply Wa.
Qed.
Lemma two_regs s va : wfv s va -> Z.of_nat (length va) * rbits s = 2 * rbits s -> exists a b, va = [a; b] /\ reg (rbits s) a /\ reg (rbits s) b.
Proof.
  intros Wa La. assert (0 < rbits s) by (destruct s; reflexivity). destruct va as [|a [|b [|c va]]]; try (cbn [length] in La; exfalso; nia).
  exists a, b. split; [reflexivity|]. apply wfv_cons in Wa. destruct Wa as [Ha Wa]. apply wfv_cons in Wa. tauto.
Qed.
Theorem to_float32_int64_partial : forall A sg T, valid_arch A = true -> vsize T -> direct A T = true ->
  conv_rel 64 32 (2 * T) T (vreg A 64 (2 * T)) (vregf A T) (to_float32_64 A sg T) all_lanes (nearest_f32 (int64_of sg)).
Proof.
  intros A sg T HV HT HD. assert (HH : has_i64_to_f64 A = true).
  { unfold direct in HD. unfold has_i64_to_f64. destruct (use_null A); [reflexivity|]. destruct (use_avx512dq A); [reflexivity|discriminate HD]. }
  rewrite (d_regs A T HV HH HT). set (cv := fun x => f_of_int 32 (int64_of sg x)).
  assert (HC : forall x, 0 <= x < 2 ^ 64 -> 0 <= cv x < 2 ^ 32) by (intros; apply cv32_ran).
  assert (FN : forall l r, Forall2 (is cv) l r -> Forall2 (nearest_f32 (int64_of sg)) l r).
  { intros l r H. induction H as [|x y l r Hxy H IH]; constructor; auto. rewrite Hxy. apply cv32_nearest. }
  intros va Wa La _. unfold to_float32_64. fold cv. rewrite HH. cbn [negb]. unfold direct in HD.
  destruct (has_cases A HV HH) as [(ED & E5 & E2 & EX & ES & EN & _)|(ED & E5 & E2 & EX & ES & E6 & EC)].
  - rewrite ED, EN in *. cbn [andb orb] in HD. rewrite ?EX, ?E5. destruct (Z.eqb_spec T 128) as [->|N1].
    + assert (EL : use_avx512vl A = true) by (destruct (use_avx512vl A); [reflexivity|discriminate HD]). rewrite EL.
      assert (ER : vregf A 128 = R128) by (unfold vregf; destruct (fast_flt A); reflexivity). rewrite ER in *. cbn [dreg] in *. rewrite EX in *.
      destruct (one_reg R256 va Wa La) as (a & -> & Ha). eexists. split; [reflexivity|].
      destruct (F2_d1 cv _ _ _ _ (d1_down cv HC R256 R128 a eq_refl)) as [Hr HF]. split; [apply wfv_cons; split; [exact Hr|constructor]|]. split; [reflexivity|]. rewrite !lanes1. apply FN. exact HF.
    + destruct (Z.eqb_spec T 256) as [->|N2].
      * cbn [andb]. assert (ER : vregf A 256 = R256) by (unfold vregf, fast_flt; rewrite E5; reflexivity). rewrite ER in *. cbn [dreg] in *. rewrite E5 in *.
        destruct (one_reg R512 va Wa La) as (a & -> & Ha). eexists. split; [reflexivity|].
        destruct (F2_d1 cv _ _ _ _ (d1_down cv HC R512 R256 a eq_refl)) as [Hr HF]. split; [apply wfv_cons; split; [exact Hr|constructor]|]. split; [reflexivity|]. rewrite !lanes1. apply FN. exact HF.
      * cbn [andb orb] in *. destruct (Z.eqb_spec T 512) as [->|N3]; [|discriminate HD]. cbn [andb].
        assert (ER : vregf A 512 = R512) by (unfold vregf, fast_flt; rewrite E5; reflexivity). rewrite ER in *. cbn [dreg] in *.
        destruct (two_regs R512 va Wa La) as (a & b & -> & Ha & Hb). eexists. split; [reflexivity|].
        destruct (F2_d2 cv _ _ _ _ (d2_join cv R256 R512 a b _ _ (or_intror (conj eq_refl eq_refl)) (d1_down cv HC R512 R256 a eq_refl) (d1_down cv HC R512 R256 b eq_refl))) as [Hr HF].
        split; [apply wfv_cons; split; [exact Hr|constructor]|]. split; [reflexivity|]. rewrite lanes_cons, !lanes1. apply FN. exact HF.
  - rewrite ED in HD. cbn [andb] in HD. rewrite orb_false_r in HD. apply andb_prop in HD as [EN HD]. apply Z.eqb_eq in HD. subst T. rewrite EN. change (128 =? 128) with true. cbn iota.
    assert (ER : vregf A 128 = R128) by (unfold vregf; destruct (fast_flt A); reflexivity). rewrite ER in *. cbn [dreg] in *. rewrite EX in *.
    destruct (two_regs R128 va Wa La) as (a & b & -> & Ha & Hb). eexists. split; [reflexivity|].
    destruct (F2_d2 cv _ _ _ _ (d2_words cv HC a b)) as [Hr HF].
    split; [apply wfv_cons; split; [exact Hr|constructor]|]. split; [reflexivity|]. rewrite lanes_cons, !lanes1. apply FN. exact HF.
Qed.
(** The other vectors go through float64: rounded correctly when the integer is a float64 ... *)
Lemma dom53_spec sg x : dom53 sg x = true -> Z.abs (int64_of sg x) <= 2 ^ 53.
Proof. apply Z.leb_le. Qed.
Lemma by_float64_rel A sg T (P Q : Z -> Z -> Prop) : valid_arch A = true -> vsize T -> has_all_i64 A (2 * T) = true ->
  conv_rel 64 32 (2 * T) T (vregf A (2 * T)) (vregf A T) (to_float32_d A T) all_lanes P ->
  (forall x r, dom53 sg x = true -> P (f_of_int 64 (int64_of sg x)) r -> Q x r) ->
  conv_rel 64 32 (2 * T) T (vreg A 64 (2 * T)) (vregf A T) (by_float64 A sg T) (dom53 sg) Q.
Proof.
  intros HV HT HI H1 HQ va Wa La Hd. assert (HT2 : vsize (2 * T)) by (destruct HT as [k ->]; exists (S k); rewrite Nat2Z.inj_succ, Z.pow_succ_r by lia; ring).
  destruct (to_f64_i64_rel A sg (2 * T) HV HT2 HI va Wa La) as (v & Ev & Wv & Lv & HF); [apply forallb_forall; reflexivity|].
  destruct (H1 v Wv Lv) as (vr & Er & Wr & Lr & HG); [apply forallb_forall; reflexivity|].
  exists vr. unfold by_float64. rewrite Ev. cbn [bind]. split; auto. split; auto. split; auto.
  apply F2_is_map in HF. rewrite HF in HG. clear - HQ Hd HG. revert HG Hd. generalize (lanes 64 (vreg A 64 (2 * T)) va) (lanes 32 (vregf A T) vr).
  intros l r HG Hd. revert r HG. induction l as [|x l IH]; intros r HG; inversion HG; subst; constructor; cbn [forallb] in Hd; apply andb_prop in Hd as [Hd Hd2]; auto.
Qed.
Lemma all_i64_128 A T : use_avx512dq A = false -> has_i64_to_f64 A = true -> has_all_i64 A T = true.
Proof. unfold has_i64_to_f64, has_all_i64. intros ->. cbn [andb orb]. rewrite orb_false_r. intros H. rewrite orb_false_r. exact H. Qed.
Theorem to_float32_int64_small_spec : forall A sg T, valid_arch A = true -> vsize T -> has_i64_to_f64 A = true -> use_avx512dq A = false -> use_msa A = false ->
  conv_rel 64 32 (2 * T) T (vreg A 64 (2 * T)) (vregf A T) (to_float32_64 A sg T) (dom53 sg) (nearest_f32 (int64_of sg)).
Proof.
  intros A sg T HV HT HH HD HM. destruct (has_cases A HV HH) as [(E & _)|(_ & E5 & E2 & EX & ES & E6 & EC)]; [rewrite HD in E; discriminate E|].
  destruct (use_null A && (T =? 128)) eqn:EN.
  - assert (EQ : direct A T = true) by (unfold direct; rewrite EN; reflexivity). intros va Wa La _. apply to_float32_int64_partial; auto. apply forallb_forall; reflexivity.
  - assert (HB : conv_rel 64 32 (2 * T) T (vreg A 64 (2 * T)) (vregf A T) (by_float64 A sg T) (dom53 sg) (nearest_f32 (int64_of sg))).
    { apply (by_float64_rel A sg T narrowed); auto; [apply all_i64_128; auto|apply to_float32_double_partial; auto|]. intros x r Hx Hr. apply narrowed_int; [apply dom53_spec; exact Hx|exact Hr]. }
    intros va Wa La Hd. unfold to_float32_64. rewrite HH, EX, E5, E6, !andb_false_r. cbn [negb]. rewrite andb_comm in EN.
    destruct (T =? 128); [|apply HB; auto]. cbn [andb] in EN. rewrite EN. apply HB; auto.
Qed.
(** ... but rounded towards zero for the vectors of AVX512DQ that are larger than a register *)
Theorem to_float32_int64_wide_spec : forall A sg T, valid_arch A = true -> vsize T -> use_avx512dq A = true -> 1024 <= T ->
  conv_rel 64 32 (2 * T) T (vreg A 64 (2 * T)) (vregf A T) (to_float32_64 A sg T) (dom53 sg) (chopped_f32 (int64_of sg)).
Proof.
  intros A sg T HV HT HD HW. assert (HH : has_i64_to_f64 A = true) by (unfold has_i64_to_f64; rewrite HD, orb_true_r; reflexivity).
  destruct (has_cases A HV HH) as [(_ & E5 & E2 & EX & ES & EN & _)|(E & _)]; [|rewrite HD in E; discriminate E].
  assert (HB : conv_rel 64 32 (2 * T) T (vreg A 64 (2 * T)) (vregf A T) (by_float64 A sg T) (dom53 sg) (chopped_f32 (int64_of sg))).
  { apply (by_float64_rel A sg T chopped); auto.
    - unfold has_all_i64. rewrite HD. destruct (Z.leb_spec 512 (2 * T)); [rewrite !orb_true_r; reflexivity|lia].
    - apply to_float32_double_avx512_spec; auto. lia.
    - intros x r Hx Hr. apply chopped_int; [apply dom53_spec; exact Hx|exact Hr]. }
  intros va Wa La Hd. unfold to_float32_64. rewrite HH. cbn [negb].
  destruct (Z.eqb_spec T 128); [lia|]. destruct (Z.eqb_spec T 256); [lia|]. destruct (Z.eqb_spec T 512); [lia|]. apply HB; auto.
Qed.
(** ... and on MSA the pairs change places *)
Lemma swap_F2 (P : Z -> Z -> Prop) n : forall va v, (length va <= n)%nat -> length va = length v -> Forall2 P (lanes 64 R128 va) (lanes 64 R128 v) ->
  Forall2 P (lanes 64 R128 (swap_pairs va)) (lanes 64 R128 (swap_pairs v)).
Proof.
  induction n as [|n IH]; intros va v Hn HL HF; (destruct va as [|a [|b va]]; destruct v as [|c [|d v]]; try discriminate HL; try exact HF); try (exfalso; cbn [length] in Hn; lia).
  assert (EL : forall x y l, lanes 64 R128 (x :: y :: l) = [lane 64 0 x; lane 64 1 x; lane 64 0 y; lane 64 1 y] ++ lanes 64 R128 l) by reflexivity.
  cbn [swap_pairs]. rewrite EL in *. rewrite EL in HF. cbn [app] in *. inversion HF as [|? ? ? ? P1 HF1]; subst. inversion HF1 as [|? ? ? ? P2 HF2]; subst. inversion HF2 as [|? ? ? ? P3 HF3]; subst. inversion HF3 as [|? ? ? ? P4 HF4]; subst.
  repeat (apply Forall2_cons; [assumption|]). apply IH; [cbn [length] in Hn; lia|cbn [length] in HL; lia|exact HF4].
Qed.
Theorem to_float32_int64_msa_spec : forall A sg T va, valid_arch A = true -> vsize T -> use_msa A = true ->
  wfv R128 va -> Z.of_nat (length va) * 128 = 2 * T -> forallb (dom53 sg) (lanes 64 R128 va) = true ->
  exists vr, to_float32_64 A sg T va = Ok vr /\ wfv R128 vr /\ Forall2 (nearest_f32 (int64_of sg)) (lanes 64 R128 (swap_pairs va)) (lanes 32 R128 vr).
Proof.
  intros A sg T va HV HT HM Wa La Hd. assert (HH : has_i64_to_f64 A = true) by (unfold has_i64_to_f64; rewrite HM, !orb_true_r; reflexivity).
  destruct (has_cases A HV HH) as [(_ & _ & _ & _ & _ & _ & _ & _ & E)|(ED & E5 & E2 & EX & ES & E6 & EC)]; [rewrite HM in E; discriminate E|].
  assert (EN : use_null A = false) by (revert HM; clear - HV; fam HV; rw_flags; intros; first [reflexivity | fcontra]).
  assert (HT2 : vsize (2 * T)) by (destruct HT as [k ->]; exists (S k); rewrite Nat2Z.inj_succ, Z.pow_succ_r by lia; ring).
  assert (ER : forall T', vregf A T' = R128) by (intros T'; unfold vregf, fast_flt; rewrite E5, EX; destruct (T' <=? 128); reflexivity).
  pose proof (to_f64_i64_rel A sg (2 * T) HV HT2 (all_i64_128 A (2 * T) ED HH)) as H1. rewrite <- (i64_regs A HV HH), ER in H1.
  destruct (H1 va Wa La) as (v & Ev & Wv & Lv & HF); [apply forallb_forall; reflexivity|].
  destruct (to_float32_double_msa_spec A T v HV HT HM Wv Lv) as (vr & Er & Wr & HG).
  exists vr. split; [|split; [exact Wr|]].
  - unfold to_float32_64, by_float64. rewrite HH, EX, E5, E6, EN, !andb_false_r. cbn [negb]. rewrite Ev. cbn [bind]. destruct (T =? 128); exact Er.
  - assert (HF2 := swap_F2 _ (length va) va v (le_n _) ltac:(cbn [rbits] in *; lia) HF). apply F2_is_map in HF2. rewrite HF2 in HG.
    assert (Hd2 : forallb (dom53 sg) (lanes 64 R128 (swap_pairs va)) = true).
    { clear - Hd. assert (G : forall n va, (length va <= n)%nat -> forallb (dom53 sg) (lanes 64 R128 va) = true -> forallb (dom53 sg) (lanes 64 R128 (swap_pairs va)) = true).
      { induction n as [|n IH]; intros l Hn H; (destruct l as [|a [|b l]]; try exact H); try (exfalso; cbn [length] in Hn; lia).
        assert (EL : forall x y l, lanes 64 R128 (x :: y :: l) = elems 64 2 x ++ elems 64 2 y ++ lanes 64 R128 l) by reflexivity.
        cbn [swap_pairs]. rewrite EL, !forallb_app in *. apply andb_prop in H as [H1 H]. apply andb_prop in H as [H2 H]. rewrite H1, H2. apply IH; [cbn [length] in Hn; lia|exact H]. }
      exact (G (length va) va (le_n _) Hd). }
    clear - HG Hd2. revert HG Hd2. generalize (lanes 64 R128 (swap_pairs va)) (lanes 32 R128 vr). intros l r HG Hd. revert r HG.
    induction l as [|x l IH]; intros r HG; inversion HG; subst; constructor; cbn [forallb] in Hd; apply andb_prop in Hd as [Hd Hd2]; auto.
    apply narrowed_int; [apply dom53_spec; exact Hd|assumption].
Qed.
(** Larger integers are rounded twice: 2^60 + 2^36 + 1 lies between the float32 2^60 and 2^60 + 2^37,
    nearer to the latter, which AVX512DQ gives; 64-bit ARM gives 2^60 *)
Theorem to_float32_int64_refuted :
  to_float32_64 arch_neon64 true 128 [0x1000001000000001; 0] = Ok [0x5d800000] /\
  to_float32_64 arch_avx512dq true 512 [0x1000001000000001; 0] = Ok [0x5d800001] /\
  to_float32_64 arch_avx512dq true 128 [0] = NotImpl.
Proof. split; [vm_compute; reflexivity|]. split; [vm_compute; reflexivity|]. vm_compute; reflexivity. Qed.

(** int64 to float64 and back, for integers that float64 can hold *)
Theorem int64_round_trip_partial : forall A sg T va, valid_arch A = true -> vsize T -> has_all_i64 A T = true ->
  wfv (vreg A 64 T) va -> Z.of_nat (length va) * rbits (vreg A 64 T) = T -> forallb (dom53 sg) (lanes 64 (vreg A 64 T) va) = true ->
  exists v vr, to_float64_64 A sg T va = Ok v /\ to_int64_d A sg T v = Ok vr /\ lanes 64 (vreg A 64 T) vr = lanes 64 (vreg A 64 T) va.
Proof.
  intros A sg T va HV HT HI Wa La Hd.
  assert (HH : has_i64_to_f64 A = true).
  { unfold has_i64_to_f64. unfold has_all_i64 in HI. destruct (use_null A), (use_neon64 A), (use_vsx207 A), (use_msa A), (use_avx512dq A); auto. }
  destruct (to_f64_i64_rel A sg T HV HT HI va Wa La) as (v & Ev & Wv & Lv & HF); [apply forallb_forall; reflexivity|].
  assert (HR : Forall (fun x => 0 <= x < 2 ^ 64) (lanes 64 (vreg A 64 T) va)).
  { apply Forall_forall. intros x Hx. unfold lanes in Hx. apply in_flat_map in Hx as (a & _ & Hx). apply in_elems in Hx; [auto|lia]. }
  assert (HX : forall x, 0 <= x < 2 ^ 64 -> dom53 sg x = true -> f_int 64 (f_of_int 64 (int64_of sg x)) mod 2 ^ 64 = x /\ fits64 sg 64 (f_of_int 64 (int64_of sg x)) = true).
  { intros x Hx Hdx. apply dom53_spec in Hdx. pose proof (int64_back _ Hdx) as EB. destruct (of_int_class _ Hdx) as (_ & _ & C3). split.
    - rewrite EB. destruct sg; cbn [int64_of] in *; [|apply Z.mod_small; exact Hx].
      change (wrap 64 (sgn 64 x) = x). rewrite <- (wrap_small 64 x) at 2 by exact Hx. apply (wrap_sgn 64). lia.
    - change (2 ^ 53) with 9007199254740992 in Hdx. unfold fits64, f_fits. rewrite EB, C3. destruct sg; cbn [int64_of] in *; change (2 ^ 63) with 9223372036854775808; change (2 ^ 64) with 18446744073709551616; cbn [andb];
      apply andb_true_intro; split; apply Z.leb_le; lia. }
  apply F2_is_map in HF. destruct (to_int64_double_partial A sg T HV HT HH v Wv Lv) as (vr & Er & Wr & Lr & HG).
  - rewrite HF. apply forallb_forall. intros y Hy. apply in_map_iff in Hy as (x & <- & Hx). apply HX.
    + rewrite Forall_forall in HR. auto.
    + rewrite forallb_forall in Hd. auto.
  - exists v, vr. split; auto. split; auto. apply F2_is_map in HG. rewrite HG, HF, map_map. rewrite <- map_id. apply map_ext_in. intros x Hx. apply HX.
    + rewrite Forall_forall in HR. auto.
    + rewrite forallb_forall in Hd. auto.
Qed.

(** Concrete cases: -2.75 and 1e18; NaN and 1e30; a float32 1e6 and -2.75; -5 and 2^53 - 1 *)
Example fconvi64_case :
  to_int64_d arch_neon64 true 128 [0x43abc16d674ec800c006000000000000] = Ok [0x0de0b6b3a7640000fffffffffffffffe] /\
  to_int64_d arch_avx512dq true 512 [0x46293e5939a08cea7ff8000000000000] = Ok [0x80000000000000008000000000000000] /\
  to_int64_f arch_vsx207 true 128 [0xc030000049742400] = Ok [0xfffffffffffffffe00000000000f4240; 0] /\
  forallb (dom53 true) (lanes 64 R128 [0x001ffffffffffffffffffffffffffffb]) = true /\
  to_float64_64 arch_neon64 true 128 [0x001ffffffffffffffffffffffffffffb] = Ok [0x433fffffffffffffc014000000000000] /\
  to_int64_d arch_neon64 true 128 [0x433fffffffffffffc014000000000000] = Ok [0x001ffffffffffffffffffffffffffffb] /\
  to_float32_64 arch_neon64 true 128 [0x001ffffffffffffffffffffffffffffb; 0] = Ok [0x5a000000c0a00000].
Proof.
  split; [vm_compute; reflexivity|]. split; [vm_compute; reflexivity|]. split; [vm_compute; reflexivity|]. split; [vm_compute; reflexivity|].
  split; [vm_compute; reflexivity|]. split; vm_compute; reflexivity.
Qed.
