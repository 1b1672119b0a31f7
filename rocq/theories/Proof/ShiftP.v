(** Shifts by a uniform count. *)
From Verif Require Export Proof.SetSplatP Model.Shift.

Definition shl_v w R c a := v1 w R (fun x => Z.shiftl x c) a.
Definition shr_v (sg : bool) w R c a := v1 w R (fun x => Z.shiftr (if sg then sgn w x else x) c) a.

Lemma v2_splat w R f a k : wok w R = true -> v2 w R f a (splat w R k) = v1 w R (fun x => f x (wrap w k)) a.
Proof.
  intros H. apply eq_v1; auto. intros i Hi. rewrite lane_v2, lane_splat_g by auto. reflexivity.
Qed.
Lemma v1_pt w R f g a : wok w R = true -> (forall x, 0 <= x < 2 ^ w -> wrap w (f x) = wrap w (g x)) -> v1 w R f a = v1 w R g a.
Proof.
  intros H E. destruct (wok_spec _ _ H) as (Hw & _). apply eq_v1; auto.
  intros i Hi. rewrite lane_v1 by auto. apply E. apply lane_range; lia.
Qed.
Lemma sgn8_pos c : 0 <= c < 64 -> sgn 8 (c mod 2 ^ 8) = c.
Proof. intros H. rewrite Z.mod_small by lia. apply sgn_id; lia. Qed.
Lemma sgn8_wrap k c : 8 <= k -> 0 <= c < 64 -> sgn 8 (wrap k c) = c.
Proof.
  intros Hk H. unfold wrap. rewrite Z.mod_small by (pose proof (Z.pow_le_mono_r 2 8 k); lia). apply sgn_id; lia.
Qed.
Lemma sgn_wrap_gen w k x : 0 < w <= k -> sgn w (wrap k x) = sgn w x.
Proof.
  intros H. rewrite <- (sgn_wrap w (wrap k x)), <- (sgn_wrap w x). f_equal.
  rewrite <- (lane0_wrap w k x) by lia. apply (bits_ext w); [lia|apply wrap_range; lia|apply lane_range; lia|].
  intros i Hi. rewrite testbit_wrap, testbit_lane by lia. destruct (Z.ltb_spec i w); [|lia]. cbn [andb]. f_equal; lia.
Qed.
Lemma sgn8_wrapn k c : 8 <= k -> 0 <= c < 64 -> sgn 8 (wrap k (- c)) = - c.
Proof. intros Hk H. rewrite sgn_wrap_gen by lia. apply sgn_id; lia. Qed.
Lemma wrap_sgn_lo w k x : 0 < w <= k -> wrap w (sgn k x) = wrap w x.
Proof.
  intros H. apply (bits_ext w); [lia|apply wrap_range; lia|apply wrap_range; lia|].
  intros i Hi. rewrite !testbit_wrap, testbit_sgn_lo by lia. reflexivity.
Qed.
(** scalar rungs *)
Lemma null_shl_ok w R c a : wok (wb w) R = true -> 0 <= c < wb w -> null_shift_l (ut w) R a c = Ok (shl_v (wb w) R c a).
Proof.
  intros H Hc. unfold null_shift_l, shl_v. replace (wb w) with (snd (ut w)) by (destruct w; reflexivity).
  apply (nloop_v1 (ut w) R (fun x => c_shl x (c_u32, c))); [destruct w; exact H|]. intros x Hx.
  replace (snd (ut w)) with (wb w) in * by (destruct w; reflexivity).
  assert (cconv (ut w) x = x) as ->. { destruct w; cbn [ut cconv]; apply Z.mod_small; exact Hx. }
  rewrite Z.shiftl_mul_pow2 by lia.
  assert (0 < 2 ^ c <= 2 ^ (wb w - 1)).
  { split; [apply Z.pow_pos_nonneg; lia|]. apply Z.pow_le_mono_r; lia. }
  destruct w; cbn [wb] in *; unfold c_shl, promote; cbn -[Z.pow Z.mul Z.leb wrap sgn];
  match goal with |- context [?k <=? c] => destruct (Z.leb_spec k c); [lia|] end;
  (destruct (Z.ltb_spec c 0); [lia|]); cbn [orb].
  all: try (destruct (Z.ltb_spec x 0); [lia|]; destruct (Z.ltb_spec (x * 2 ^ c) (2 ^ 32)); [|nia]).
  all: eexists; split; [reflexivity|]; cbn [snd]; rewrite ?wrap_wrap; try reflexivity.
  - apply wrap_sgn_lo; lia.
  - apply wrap_sgn_lo; lia.
Qed.
Lemma null_shr_ok (sg : bool) w R c a : wok (wb w) R = true -> 0 <= c < wb w ->
  null_shift_r (if sg then st w else ut w) R a c = Ok (shr_v sg (wb w) R c a).
Proof.
  intros H Hc. unfold null_shift_r, shr_v. set (t := if sg then st w else ut w).
  assert (snd t = wb w) as Et by (destruct sg, w; reflexivity). rewrite <- Et.
  apply (nloop_v1 t R (fun x => c_shr x (c_u32, c))); [rewrite Et; exact H|]. intros x Hx. rewrite Et in *.
  assert (cconv t x = if sg then sgn (wb w) x else x) as ->.
  { destruct sg, w; cbn [ut st cconv t]; try reflexivity; apply Z.mod_small; exact Hx. }
  set (y := if sg then _ else x).
  destruct sg, w; cbn [wb] in *; unfold c_shr, promote; cbn -[Z.pow Z.mul Z.leb wrap sgn y];
  match goal with |- context [?k <=? c] => destruct (Z.leb_spec k c); [lia|] end;
  (destruct (Z.ltb_spec c 0); [lia|]); cbn [orb]; eexists; split; reflexivity.
Qed.

(** vector rungs *)
Lemma mm_sll_ok w R a c : wok w R = true -> 0 <= c < w -> mm_sll w R a c = shl_v w R c a.
Proof. intros H Hc. apply v1_pt; auto. intros x Hx. destruct (Z.ltb_spec c w); [reflexivity|lia]. Qed.
Lemma mm_srl_ok w R a c : wok w R = true -> 0 <= c < w -> mm_srl w R a c = shr_v false w R c a.
Proof. intros H Hc. apply v1_pt; auto. intros x Hx. destruct (Z.ltb_spec c w); [reflexivity|lia]. Qed.
Lemma mm_sra_ok w R a c : wok w R = true -> 0 <= c < w -> mm_sra w R a c = shr_v true w R c a.
Proof. intros H Hc. apply v1_pt; auto. intros x Hx. destruct (Z.ltb_spec c w); [reflexivity|lia]. Qed.
Lemma neon_shl_ok w a c : wok w 128 = true -> 8 <= w <= 64 -> 0 <= c < w ->
  vshlq_u w a (splat w 128 c) = shl_v w 128 c a.
Proof.
  intros H Hw Hc. unfold vshlq_u. rewrite v2_splat by auto. apply v1_pt; auto. intros x Hx.
  rewrite sgn8_wrap by lia. cbv zeta. destruct (Z.leb_spec 0 c); [reflexivity|lia].
Qed.
Lemma neon_shr_ok (sg : bool) w a c : wok w 128 = true -> 8 <= w <= 64 -> 0 <= c < w ->
  (if sg then vshlq_s w else vshlq_u w) a (splat w 128 (- c)) = shr_v sg w 128 c a.
Proof.
  intros H Hw Hc. destruct sg; unfold vshlq_u, vshlq_s; rewrite v2_splat by auto; apply v1_pt; auto; intros x Hx;
  rewrite sgn8_wrapn by lia; cbv zeta; (destruct (Z.leb_spec 0 (- c)); [assert (c = 0) as -> by lia; change (- 0) with 0; rewrite Z.shiftl_0_r, Z.shiftr_0_r, ?wrap_sgn by lia; reflexivity|]);
  rewrite Z.opp_involutive; reflexivity.
Qed.
Lemma modw w c : 0 <= c < w -> wrap w c mod w = c.
Proof.
  intros H. unfold wrap. rewrite (Z.mod_small c (2 ^ w)); [apply Z.mod_small; lia|].
  pose proof (Z.pow_gt_lin_r 2 w). lia.
Qed.
Lemma vec_sl_ok w a c : wok w 128 = true -> 0 <= c < w -> vec_sl w a (splat w 128 c) = shl_v w 128 c a.
Proof. intros H Hc. unfold vec_sl. rewrite v2_splat by auto. apply v1_pt; auto. intros. rewrite modw by auto. reflexivity. Qed.
Lemma vec_shr_ok (sg : bool) w a c : wok w 128 = true -> 0 <= c < w ->
  (if sg then vec_sra w else vec_sr w) a (splat w 128 c) = shr_v sg w 128 c a.
Proof.
  intros H Hc. destruct sg; unfold vec_sr, vec_sra; rewrite v2_splat by auto; apply v1_pt; auto; intros; rewrite modw by auto; reflexivity.
Qed.
Lemma msa_shl_ok w a c : wok w 128 = true -> 0 <= c < w -> msa_sll w a (splat w 128 c) = shl_v w 128 c a.
Proof. intros H Hc. unfold msa_sll. rewrite v2_splat by auto. apply v1_pt; auto. intros. rewrite modw by auto. reflexivity. Qed.
Lemma msa_shr_ok (sg : bool) w a c : wok w 128 = true -> 0 <= c < w ->
  (if sg then msa_sra w else msa_srl w) a (splat w 128 c) = shr_v sg w 128 c a.
Proof.
  intros H Hc. destruct sg; unfold msa_srl, msa_sra; rewrite v2_splat by auto; apply v1_pt; auto; intros; rewrite modw by auto; reflexivity.
Qed.
(** MSA, 64-bit lanes: the count vector holds 32-bit lanes *)
Lemma splat32_64 c : splat 32 128 c = splat 64 128 (wrap 32 c + wrap 32 c * 2 ^ 32).
Proof.
  apply (reg_lanes 64 128); [reflexivity|apply splat_reg; reflexivity|apply splat_reg; reflexivity|]. intros i Hi.
  change 64 with (32 * 2) at 1. change (128 / 64) with 2 in Hi. rewrite lane_double by lia.
  rewrite !lane_splat_g by (try reflexivity; change (128 / 32) with 4; try (change (128 / 64) with 2); lia).
  symmetry. apply Z.mod_small. pose proof (wrap_range 32 c ltac:(lia)). lia.
Qed.
Lemma mod64_dup c : 0 <= c < 64 -> wrap 64 (wrap 32 c + wrap 32 c * 2 ^ 32) mod 64 = c.
Proof.
  intros H. unfold wrap. rewrite (Z.mod_small c (2 ^ 32)) by lia. rewrite (Z.mod_small _ (2 ^ 64)) by lia.
  replace (c + c * 2 ^ 32) with (c + (c * 2 ^ 26) * 64) by lia. rewrite Z.mod_add by lia. apply Z.mod_small; lia.
Qed.
Lemma msa_shl64_ok a c : 0 <= c < 64 -> msa_sll 64 a (splat 32 128 c) = shl_v 64 128 c a.
Proof.
  intros Hc. rewrite splat32_64. unfold msa_sll. rewrite v2_splat by auto. apply v1_pt; auto. intros. rewrite mod64_dup by auto. reflexivity.
Qed.
Lemma msa_shr64_ok (sg : bool) a c : 0 <= c < 64 ->
  (if sg then msa_sra 64 else msa_srl 64) a (splat 32 128 c) = shr_v sg 64 128 c a.
Proof.
  intros Hc. rewrite splat32_64. destruct sg; unfold msa_srl, msa_sra; rewrite v2_splat by auto; apply v1_pt; auto; intros; rewrite mod64_dup by auto; reflexivity.
Qed.
Lemma splat_small A w c : valid_arch A = true -> -64 <= c < 64 -> (use_sse2 A = true -> w <> W8) ->
  splat_rt A w R128 c = Ok (splat (wb w) 128 c).
Proof. intros HV Hc HN. rewrite splat_rt_ok; auto. intros -> _ HS. exfalso. apply HN; auto. Qed.

Lemma i_shift_l_d_ok A w s a c : valid_arch A = true -> avail_int A (wb w) s = true -> w <> W8 ->
  0 <= c < wb w -> i_shift_l_d A w s a c = Ok (shl_v (wb w) (rbits s) c a).
Proof.
  intros HV HA Hw Hc. unfold i_shift_l_d, shift_rt, shift_rt64, native512.
  destruct w; [congruence|..]; cbn [wb] in *; destruct s; cbn [rbits nat512];
  lad HV HA ltac:(idtac; first
   [ rewrite mm_sll_ok by (try reflexivity; lia); reflexivity
   | rewrite null_shl_ok by (try reflexivity; cbn [wb]; lia); reflexivity
   | rewrite splat_small by (auto; try lia; discriminate); cbn [bind wb];
     first [ rewrite neon_shl_ok by (try reflexivity; lia) | rewrite vec_sl_ok by (try reflexivity; lia)
           | rewrite msa_shl_ok by (try reflexivity; lia) | rewrite msa_shl64_ok by lia ]; reflexivity ]).
Qed.
Lemma i_shift_r_ud_ok A w s a c : valid_arch A = true -> avail_int A (wb w) s = true -> w <> W8 ->
  0 <= c < wb w -> i_shift_r_ud A w s a c = Ok (shr_v false (wb w) (rbits s) c a).
Proof.
  intros HV HA Hw Hc. unfold i_shift_r_ud, shift_rt, shift_rt64, native512.
  destruct w; [congruence|..]; cbn [wb] in *; destruct s; cbn [rbits nat512];
  lad HV HA ltac:(idtac; first
   [ rewrite mm_srl_ok by (try reflexivity; lia); reflexivity
   | rewrite (null_shr_ok false) by (try reflexivity; cbn [wb]; lia); reflexivity
   | rewrite splat_small by (auto; try lia; discriminate); cbn [bind wb];
     first [ rewrite (neon_shr_ok false) by (try reflexivity; lia) | rewrite (vec_shr_ok false) by (try reflexivity; lia)
           | rewrite (msa_shr_ok false) by (try reflexivity; lia) | rewrite (msa_shr64_ok false) by lia ]; reflexivity ]).
Qed.
(** int64 by bias *)
Lemma sra64_scalar x c : 0 <= x < 2 ^ 64 -> 0 <= c < 64 ->
  wrap 64 (wrap 64 (Z.shiftr (wrap 64 (x + wrap 64 bias64)) c) - wrap 64 (Z.shiftr (wrap 64 bias64) c)) = wrap 64 (Z.shiftr (sgn 64 x) c).
Proof.
  intros Hx Hc. set (y := wrap 64 (x + wrap 64 bias64)).
  assert (0 <= y < 2 ^ 64) as Hy by (apply wrap_range; lia).
  assert (sgn 64 x = y - 2 ^ 63) as ->.
  { unfold y, sgn, wrap, bias64. rewrite (Z.mod_small x) by lia. change (64 - 1) with 63.
    change (9223372036854775808 mod 2 ^ 64) with (2 ^ 63).
    destruct (Z.ltb_spec x (2 ^ 63)).
    - rewrite Z.mod_small by lia. lia.
    - assert ((x + 2 ^ 63) mod 2 ^ 64 = x + 2 ^ 63 - 2 ^ 64) as ->; [|lia].
      symmetry. apply (Z.mod_unique _ _ 1); lia. }
  change (wrap 64 bias64) with (2 ^ 63).
  rewrite !Z.shiftr_div_pow2 by lia.
  assert (2 ^ 63 = 2 ^ (63 - c) * 2 ^ c) as E63. { rewrite <- Z.pow_add_r by lia. f_equal; lia. }
  assert (0 < 2 ^ c) by (apply Z.pow_pos_nonneg; lia).
  replace ((y - 2 ^ 63) / 2 ^ c) with (y / 2 ^ c - 2 ^ (63 - c)).
  2:{ rewrite E63. replace (y - 2 ^ (63 - c) * 2 ^ c) with (y + - 2 ^ (63 - c) * 2 ^ c) by lia. rewrite Z.div_add by lia. lia. }
  replace (2 ^ 63 / 2 ^ c) with (2 ^ (63 - c)) by (rewrite E63, Z.div_mul by lia; reflexivity).
  unfold wrap. symmetry. apply Zminus_mod.
Qed.
Lemma sra64_emul_ok A s a c : valid_arch A = true -> avail_int A 64 s = true -> reg (rbits s) a -> 0 <= c < 64 ->
  sra64_emul A s a c = Ok (shr_v true 64 (rbits s) c a).
Proof.
  intros HV HA Ha Hc. unfold sra64_emul. pose proof (wok_lib W64 s) as HW. cbn [wb] in HW.
  rewrite (konst_ok A W64 s) by auto. cbn [bind wb].
  rewrite (i_add_ok A W64 s) by auto. cbn [bind wb].
  rewrite !(i_shift_r_ud_ok A W64 s) by (auto; cbn [wb]; first [discriminate|lia]). cbn [bind wb].
  rewrite (i_sub_ok A W64 s) by (auto; apply v1_reg; auto). f_equal. cbn [wb]. unfold shr_v.
  apply eq_v1; auto. intros i Hi. rewrite lane_v2, !lane_v1, lane_v2, lane_splat_g by auto.
  apply sra64_scalar; [apply lane_range; lia|lia].
Qed.
Lemma i_shift_r_sd_ok A w s a c : valid_arch A = true -> avail_int A (wb w) s = true -> w <> W8 -> reg (rbits s) a ->
  0 <= c < wb w -> i_shift_r_sd A w s a c = Ok (shr_v true (wb w) (rbits s) c a).
Proof.
  intros HV HA Hw Ha Hc. unfold i_shift_r_sd, shift_rt, shift_rt64, native512.
  destruct w; [congruence|..]; cbn [wb] in *; destruct s; cbn [rbits nat512];
  lad HV HA ltac:(idtac; first
   [ rewrite mm_sra_ok by (try reflexivity; lia); reflexivity
   | rewrite sra64_emul_ok by (auto; lia); reflexivity
   | rewrite (null_shr_ok true) by (try reflexivity; cbn [wb]; lia); reflexivity
   | rewrite splat_small by (auto; try lia; discriminate); cbn [bind wb];
     first [ rewrite (neon_shr_ok true) by (try reflexivity; lia) | rewrite (vec_shr_ok true) by (try reflexivity; lia)
           | rewrite (msa_shr_ok true) by (try reflexivity; lia) | rewrite (msa_shr64_ok true) by lia ]; reflexivity ]).
Qed.
(** templates *)
Lemma i_shift_l_dt_ok A w s a c : valid_arch A = true -> avail_int A (wb w) s = true -> w <> W8 ->
  0 <= c < wb w -> i_shift_l_dt A w s c a = Ok (shl_v (wb w) (rbits s) c a).
Proof.
  intros HV HA Hw Hc. unfold i_shift_l_dt, shift_tm, native512.
  destruct w; [congruence|..]; cbn [wb] in *; destruct s; cbn [rbits nat512];
  lad HV HA ltac:(idtac; first
   [ rewrite mm_sll_ok by (try reflexivity; lia); reflexivity
   | rewrite i_shift_l_d_ok by (auto; cbn [wb]; first [lia|discriminate]); reflexivity
   | rewrite konst_ok by auto; cbn [bind wb rbits]; rewrite vec_sl_ok by (try reflexivity; lia); reflexivity
   | reflexivity ]).
Qed.
Lemma i_shift_r_udt_ok A w s a c : valid_arch A = true -> avail_int A (wb w) s = true -> w <> W8 ->
  0 <= c < wb w -> i_shift_r_udt A w s c a = Ok (shr_v false (wb w) (rbits s) c a).
Proof.
  intros HV HA Hw Hc. unfold i_shift_r_udt, shift_tm, native512.
  destruct w; [congruence|..]; cbn [wb] in *; destruct s; cbn [rbits nat512];
  lad HV HA ltac:(idtac; first
   [ rewrite mm_srl_ok by (try reflexivity; lia); reflexivity
   | rewrite i_shift_r_ud_ok by (auto; cbn [wb]; first [lia|discriminate]); reflexivity
   | rewrite (null_shr_ok false) by (try reflexivity; cbn [wb]; lia); reflexivity
   | rewrite konst_ok by auto; cbn [bind wb rbits]; rewrite (vec_shr_ok false) by (try reflexivity; lia); reflexivity
   | rewrite splat_small by (auto; try lia; discriminate); cbn [bind wb]; rewrite (vec_shr_ok false) by (try reflexivity; lia); reflexivity
   | reflexivity ]).
Qed.
Lemma i_shift_r_sdt_ok A w s a c : valid_arch A = true -> avail_int A (wb w) s = true -> w <> W8 -> reg (rbits s) a ->
  0 <= c < wb w -> i_shift_r_sdt A w s c a = Ok (shr_v true (wb w) (rbits s) c a).
Proof.
  intros HV HA Hw Ha Hc. unfold i_shift_r_sdt, shift_tm, native512.
  destruct w; [congruence|..]; cbn [wb] in *; destruct s; cbn [rbits nat512];
  lad HV HA ltac:(idtac; first
   [ rewrite mm_sra_ok by (try reflexivity; lia); reflexivity
   | rewrite i_shift_r_sd_ok by (auto; cbn [wb]; first [lia|discriminate]); reflexivity
   | rewrite (null_shr_ok true) by (try reflexivity; cbn [wb]; lia); reflexivity
   | rewrite konst_ok by auto; cbn [bind wb rbits]; rewrite (vec_shr_ok true) by (try reflexivity; lia); reflexivity
   | rewrite splat_small by (auto; try lia; discriminate); cbn [bind wb]; rewrite (vec_shr_ok true) by (try reflexivity; lia); reflexivity
   | reflexivity ]).
Qed.
(** 8-bit lanes by means of 16-bit ones *)
Lemma v1_16_8 R F f a : wok 16 R = true -> wok 8 R = true ->
  (forall x p, 0 <= x < 2 ^ 16 -> (exists i, 0 <= i < R / 16 /\ x = lane 16 i a) -> 0 <= p < 2 ->
     lane 8 p (wrap 16 (F x)) = wrap 8 (f (lane 8 p x))) -> v1 16 R F a = v1 8 R f a.
Proof.
  intros H16 H8 H. destruct (wok_spec _ _ H16) as (_ & HR & E & _). destruct (wok_spec _ _ H8) as (_ & _ & E8 & _).
  apply eq_v1; auto. intros i Hi. unfold v1. change 16 with (8 * 2) at 1. rewrite lane_pack_sub by (auto; lia).
  pose proof (Z.mod_pos_bound i 2 ltac:(lia)). pose proof (Z.div_mod i 2 ltac:(lia)).
  assert (0 <= i / 2 < R / 16) by lia.
  set (x := lane 16 (i / 2) a).
  assert (0 <= x < 2 ^ 16) as Hx by (apply lane_range; lia).
  specialize (H x (i mod 2) Hx ltac:(eauto) ltac:(lia)).
  assert (lane 8 (i mod 2) x = lane 8 i a) as EL.
  { unfold x. change 16 with (8 * 2) at 1. rewrite (lane_lane 8 2) by lia. f_equal. lia. }
  rewrite EL in H. rewrite <- H.
  apply (bits_ext 8); [lia|apply lane_range; lia|apply lane_range; lia|]. intros k Hk.
  rewrite !testbit_lane, testbit_wrap by lia. destruct (Z.ltb_spec (8 * (i mod 2) + k) 16); [|lia]. reflexivity.
Qed.
Lemma testbit_255 k : 0 <= k -> Z.testbit 255 k = (k <? 8).
Proof.
  intros. change 255 with (Z.ones 8). destruct (Z.ltb_spec k 8); [apply Z.ones_spec_low|apply Z.ones_spec_high]; lia.
Qed.
(** solve bit-level identities: [x] the variables with their widths in the context *)
Ltac bitnorm :=
  repeat match goal with
  | |- context [Z.testbit (lane ?w ?i ?r) ?k] => rewrite (testbit_lane w i r k) by lia
  | |- context [Z.testbit (wrap ?w ?r) ?k] => rewrite (testbit_wrap w r k) by lia
  | |- context [Z.testbit (Z.land ?a ?b) ?k] => rewrite (Z.land_spec a b k)
  | |- context [Z.testbit (Z.lor ?a ?b) ?k] => rewrite (Z.lor_spec a b k)
  | |- context [Z.testbit (Z.lxor ?a ?b) ?k] => rewrite (Z.lxor_spec a b k)
  | |- context [Z.testbit (Z.ldiff ?a ?b) ?k] => rewrite (Z.ldiff_spec a b k)
  | |- context [Z.testbit (Z.shiftl ?a ?n) ?k] => rewrite (Z.shiftl_spec a n k) by lia
  | |- context [Z.testbit (Z.shiftr ?a ?n) ?k] => rewrite (Z.shiftr_spec a n k) by lia
  | |- context [Z.testbit 255 ?k] => rewrite (testbit_255 k) by lia
  | |- context [Z.testbit ?x ?k] => rewrite (Z.testbit_neg_r x k) by lia
  | |- context [?a <? ?b] => destruct (Z.ltb_spec a b); try lia; cbn [andb orb negb xorb]
  | |- context [?a <=? ?b] => destruct (Z.leb_spec a b); try lia; cbn [andb orb negb xorb]
  end.
Ltac bitdone := rewrite ?andb_false_r, ?andb_true_r, ?orb_false_r, ?orb_true_r; cbn [andb orb negb xorb]; first [reflexivity | lia | f_equal; lia | f_equal; f_equal; lia].
Lemma lane8_shl8 x p c : 0 <= x < 2 ^ 16 -> 0 <= p < 2 -> 0 <= c < 8 ->
  lane 8 p (wrap 16 (Z.ldiff (wrap 16 (Z.shiftl x c)) (wrap 16 (Z.shiftl (Z.shiftr 255 (8 - c)) 8)))) = wrap 8 (Z.shiftl (lane 8 p x) c).
Proof.
  intros Hx Hp Hc. apply (bits_ext 8); [lia|apply lane_range; lia|apply wrap_range; lia|]. intros k Hk.
  assert (p = 0 \/ p = 1) as [-> | ->] by lia; destruct (Z_lt_le_dec k c); bitnorm; bitdone.
Qed.
Lemma testbit_sgn w x k : 0 < w -> 0 <= k -> Z.testbit (sgn w x) k = Z.testbit x (if k <? w then k else w - 1).
Proof.
  intros Hw Hk. destruct (Z.ltb_spec k w); [apply testbit_sgn_lo; lia|].
  rewrite <- (testbit_sgn_lo w x (w - 1)) by lia. pose proof (sgn_range w x ltac:(lia)) as Hr.
  set (s := sgn w x) in *. assert (2 ^ (w - 1) <= 2 ^ k) by (apply Z.pow_le_mono_r; lia).
  assert (0 < 2 ^ (w - 1)) by (apply Z.pow_pos_nonneg; lia).
  rewrite !Z.testbit_odd, !Z.shiftr_div_pow2 by lia. f_equal.
  destruct (Z_lt_le_dec s 0).
  - rewrite <- (Z.div_unique s (2 ^ k) (-1) (s + 2 ^ k)) by lia.
    rewrite <- (Z.div_unique s (2 ^ (w - 1)) (-1) (s + 2 ^ (w - 1))) by lia. reflexivity.
  - rewrite !Z.div_small by lia. reflexivity.
Qed.
Ltac bitnorm ::=
  repeat match goal with
  | |- context [Z.testbit (lane ?w ?i ?r) ?k] => rewrite (testbit_lane w i r k) by lia
  | |- context [Z.testbit (wrap ?w ?r) ?k] => rewrite (testbit_wrap w r k) by lia
  | |- context [Z.testbit (sgn ?w ?r) ?k] => rewrite (testbit_sgn w r k) by lia
  | |- context [Z.testbit (Z.land ?a ?b) ?k] => rewrite (Z.land_spec a b k)
  | |- context [Z.testbit (Z.lor ?a ?b) ?k] => rewrite (Z.lor_spec a b k)
  | |- context [Z.testbit (Z.lxor ?a ?b) ?k] => rewrite (Z.lxor_spec a b k)
  | |- context [Z.testbit (Z.ldiff ?a ?b) ?k] => rewrite (Z.ldiff_spec a b k)
  | |- context [Z.testbit (Z.shiftl ?a ?n) ?k] => rewrite (Z.shiftl_spec a n k) by lia
  | |- context [Z.testbit (Z.shiftr ?a ?n) ?k] => rewrite (Z.shiftr_spec a n k) by lia
  | |- context [Z.testbit 255 ?k] => rewrite (testbit_255 k) by lia
  | |- context [Z.testbit ?x ?k] => rewrite (Z.testbit_neg_r x k) by lia
  | |- context [?a <? ?b] => destruct (Z.ltb_spec a b); try lia; cbn [andb orb negb xorb]
  | |- context [?a <=? ?b] => destruct (Z.leb_spec a b); try lia; cbn [andb orb negb xorb]
  end.
Ltac pk := intros; match goal with |- lane 8 ?p _ = _ => assert (p = 0 \/ p = 1) as [-> | ->] by lia end;
  (apply (bits_ext 8); [lia|apply lane_range; lia|apply wrap_range; lia|]); intros k Hk.
Lemma lane8_sra8 x p c : 0 <= x < 2 ^ 16 -> 0 <= p < 2 -> 0 <= c < 8 ->
  lane 8 p (wrap 16 (Z.lor (wrap 16 (Z.shiftr (wrap 16 (Z.shiftr (sgn 16 (wrap 16 (Z.shiftl x 8))) c)) 8))
     (wrap 16 (Z.shiftl (wrap 16 (Z.shiftr (sgn 16 x) (8 + c))) 8)))) = wrap 8 (Z.shiftr (sgn 8 (lane 8 p x)) c).
Proof. pk; destruct (Z_lt_le_dec (k + c) 8); bitnorm; try bitdone. Qed.
Lemma lane8_srl8 x p c : 0 <= x < 2 ^ 16 -> 0 <= p < 2 -> 0 <= c < 8 ->
  lane 8 p (wrap 16 (Z.ldiff (wrap 16 (Z.shiftr x c)) (wrap 16 (Z.shiftl (Z.shiftr 255 (8 - c)) (8 - c))))) = wrap 8 (Z.shiftr (lane 8 p x) c).
Proof. pk; destruct (Z_lt_le_dec (k + c) 8); bitnorm; rewrite ?(testbit_high 16 x) by lia; try bitdone. Qed.
Lemma usub_small x y : 0 <= y <= x -> x < 2 ^ 32 -> usub x y = x - y.
Proof. intros. unfold usub. apply Z.mod_small. lia. Qed.
Lemma ldiff_v1_splat w R f a m : wok w R = true ->
  Z.ldiff (v1 w R f a) (splat w R m) = v1 w R (fun x => Z.ldiff (wrap w (f x)) (wrap w m)) a.
Proof.
  intros H. rewrite (ldiff_v2 w R) by (auto; apply v1_reg; auto). rewrite v2_splat by auto. apply eq_v1; auto; try (apply v1_reg; auto).
  intros i Hi. rewrite !lane_v1 by auto. reflexivity.
Qed.
Lemma v1_v1 w R f g a : wok w R = true -> v1 w R f (v1 w R g a) = v1 w R (fun x => f (wrap w (g x))) a.
Proof. intros H. apply eq_v1; auto. intros i Hi. rewrite !lane_v1 by auto. reflexivity. Qed.
Lemma lor_v1 w R f g a : wok w R = true ->
  Z.lor (v1 w R f a) (v1 w R g a) = v1 w R (fun x => Z.lor (wrap w (f x)) (wrap w (g x))) a.
Proof.
  intros H. rewrite (lor_v2 w R) by (auto; apply v1_reg; auto). apply eq_v1; auto; try (apply v2_reg; auto).
  intros i Hi. rewrite lane_v2, !lane_v1 by auto. reflexivity.
Qed.
Lemma wok16 s : wok 16 (rbits s) = true. Proof. destruct s; reflexivity. Qed.
Lemma wok8 s : wok 8 (rbits s) = true. Proof. destruct s; reflexivity. Qed.
#[global] Hint Resolve wok16 wok8 : core.
Lemma avail8_16 A s : avail_int A 8 s = true -> avail_int A 16 s = true.
Proof. destruct s; cbn; auto. Qed.
Lemma shl8_tab_ok A s a c : valid_arch A = true -> avail_int A 8 s = true -> reg (rbits s) a -> 0 <= c < 8 ->
  shl8_tab A s a c = Ok (shl_v 8 (rbits s) c a).
Proof.
  intros HV HA Ha Hc. pose proof (avail8_16 _ _ HA). unfold shl8_tab.
  rewrite splat_rt_ok by (auto; discriminate). cbn [bind wb].
  rewrite i_shift_l_d_ok by (auto; cbn [wb]; first [discriminate|lia]). cbn [bind wb].
  rewrite i_bit_andnot_ok by (auto; apply v1_reg || apply splat_reg; auto). f_equal. rewrite usub_small by lia.
  unfold shl_v. rewrite ldiff_v1_splat by auto. rewrite (v1_16_8 _ _ (fun x => Z.shiftl x c)); auto.
  intros. rewrite wrap_wrap. apply lane8_shl8; auto.
Qed.
Lemma srl8_tab_ok A s a c : valid_arch A = true -> avail_int A 8 s = true -> reg (rbits s) a -> 0 <= c < 8 ->
  srl8_tab A s a c = Ok (shr_v false 8 (rbits s) c a).
Proof.
  intros HV HA Ha Hc. pose proof (avail8_16 _ _ HA). unfold srl8_tab.
  rewrite splat_rt_ok by (auto; discriminate). cbn [bind wb].
  rewrite i_shift_r_ud_ok by (auto; cbn [wb]; first [discriminate|lia]). cbn [bind wb].
  rewrite i_bit_andnot_ok by (auto; apply v1_reg || apply splat_reg; auto). f_equal. rewrite usub_small by lia.
  unfold shr_v. rewrite ldiff_v1_splat by auto. rewrite (v1_16_8 _ _ (fun x => Z.shiftr x c)); auto.
  intros. rewrite wrap_wrap. apply lane8_srl8; auto.
Qed.
Lemma sse2_sll A a c : use_sse2 A = true -> valid_arch A = true -> i_shift_l_d A W16 R128 a c = Ok (mm_sll 16 128 a c).
Proof. intros HS HV. unfold i_shift_l_d, shift_rt. fam HV; repeat split_if; try reflexivity; fcontra. Qed.
Lemma sse2_srl A a c : use_sse2 A = true -> valid_arch A = true -> i_shift_r_ud A W16 R128 a c = Ok (mm_srl 16 128 a c).
Proof. intros HS HV. unfold i_shift_r_ud, shift_rt. fam HV; repeat split_if; try reflexivity; fcontra. Qed.
Lemma v1_ones w R f : wok w R = true -> v1 w R f (ones R) = splat w R (f (ones w)).
Proof.
  intros H. rewrite <- (splat_ones w R) by auto. symmetry. apply eq_v1; auto. intros i Hi.
  rewrite !lane_splat_g by auto. f_equal. f_equal. symmetry. destruct (wok_spec _ _ H) as (Hw & _).
  apply Z.mod_small. apply ones_reg. lia.
Qed.
Lemma shl8_sse2_ok A a c : valid_arch A = true -> use_sse2 A = true -> reg 128 a -> 0 <= c < 8 ->
  shl8_sse2 A a c = Ok (shl_v 8 128 c a).
Proof.
  intros HV HS Ha Hc. unfold shl8_sse2. rewrite usub_small by lia.
  rewrite sse2_srl by auto. cbn [bind]. rewrite !sse2_sll by auto. cbn [bind].
  rewrite i_bit_andnot_ok by (auto; apply v1_reg; auto). f_equal.
  rewrite (mm_sll_ok 16 128 a) by (auto; lia). unfold mm_sll, mm_srl, shl_v. rewrite v1_ones by auto.
  match goal with |- context [v1 16 128 ?f (splat 16 128 ?m)] => replace (v1 16 128 f (splat 16 128 m)) with (splat 16 128 (f (wrap 16 m))) end.
  2:{ apply eq_v1; auto. intros i Hi. rewrite !lane_splat_g by auto. reflexivity. }
  rewrite ldiff_v1_splat by auto. rewrite (v1_16_8 _ _ (fun x => Z.shiftl x c)); auto.
  intros x p Hx _ Hp. rewrite <- lane8_shl8 by auto. do 3 f_equal.
  assert (c = 0 \/ c = 1 \/ c = 2 \/ c = 3 \/ c = 4 \/ c = 5 \/ c = 6 \/ c = 7) as Hcc by lia.
  decompose [or] Hcc; subst; reflexivity.
Qed.
Lemma srl8_sse2_ok A a c : valid_arch A = true -> use_sse2 A = true -> reg 128 a -> 0 <= c < 8 ->
  srl8_sse2 A a c = Ok (shr_v false 8 128 c a).
Proof.
  intros HV HS Ha Hc. unfold srl8_sse2. rewrite usub_small by lia.
  rewrite sse2_sll by auto. cbn [bind]. unfold nz. change (8 =? 0) with false. cbv iota.
  rewrite i_shift_r_udt_ok by (auto; cbn [wb]; first [lia|discriminate]). cbn [bind wb rbits].
  rewrite sse2_srl by auto. cbn [bind].
  rewrite i_bit_andnot_ok by (auto; apply v1_reg; auto). f_equal.
  rewrite (mm_srl_ok 16 128 a) by (auto; lia). unfold mm_sll, shr_v. rewrite v1_ones by auto.
  match goal with |- context [v1 16 128 ?f (splat 16 128 ?m)] => replace (v1 16 128 f (splat 16 128 m)) with (splat 16 128 (f (wrap 16 m))) end.
  2:{ apply eq_v1; auto. intros i Hi. rewrite !lane_splat_g by auto. reflexivity. }
  rewrite ldiff_v1_splat by auto. rewrite (v1_16_8 _ _ (fun x => Z.shiftr x c)); auto.
  intros x p Hx _ Hp. rewrite <- lane8_srl8 by auto. do 3 f_equal.
  assert (c = 0 \/ c = 1 \/ c = 2 \/ c = 3 \/ c = 4 \/ c = 5 \/ c = 6 \/ c = 7) as Hcc by lia.
  decompose [or] Hcc; subst; reflexivity.
Qed.
Lemma sra8_emul_ok A s a c : valid_arch A = true -> avail_int A 8 s = true -> reg (rbits s) a -> 0 <= c < 8 ->
  sra8_emul A s a c = Ok (shr_v true 8 (rbits s) c a).
Proof.
  intros HV HA Ha Hc. pose proof (avail8_16 _ _ HA). unfold sra8_emul, nz. change (8 =? 0) with false. cbv iota.
  repeat (first [rewrite i_shift_l_dt_ok by (auto; cbn [wb]; first [discriminate|lia])
          | rewrite i_shift_r_sd_ok by (auto; try (apply v1_reg; auto); cbn [wb]; first [discriminate|lia])
          | rewrite i_shift_r_udt_ok by (auto; cbn [wb]; first [discriminate|lia])]; cbn [bind wb]).
  rewrite i_bit_or_ok by (auto; apply v1_reg; auto). f_equal. unfold shl_v, shr_v.
  rewrite !v1_v1, lor_v1 by auto. apply v1_16_8; auto. intros. apply lane8_sra8; auto.
Qed.
Lemma nz_l A s c a : valid_arch A = true -> avail_int A 16 s = true -> reg (rbits s) a -> 0 <= c < 16 ->
  nz (i_shift_l_dt A W16 s) c a = Ok (shl_v 16 (rbits s) c a).
Proof.
  intros. unfold nz. destruct (Z.eqb_spec c 0) as [->|].
  - f_equal. unfold shl_v. apply eq_v1; auto. intros. rewrite Z.shiftl_0_r. symmetry. apply wrap_lane; try lia.
  - apply i_shift_l_dt_ok; auto. discriminate.
Qed.
Lemma nz_r A (sg : bool) s c a : valid_arch A = true -> avail_int A 16 s = true -> reg (rbits s) a -> 0 <= c < 16 ->
  nz (if sg then i_shift_r_sdt A W16 s else i_shift_r_udt A W16 s) c a = Ok (shr_v sg 16 (rbits s) c a).
Proof.
  intros. unfold nz. destruct (Z.eqb_spec c 0) as [->|].
  - f_equal. unfold shr_v. apply eq_v1; auto. intros. rewrite Z.shiftr_0_r. symmetry. destruct sg; rewrite ?wrap_sgn by lia; apply wrap_lane; try lia.
  - destruct sg; [apply i_shift_r_sdt_ok|apply i_shift_r_udt_ok]; auto; discriminate.
Qed.
Lemma sra8_emul_t_ok A s a c : valid_arch A = true -> avail_int A 8 s = true -> reg (rbits s) a -> 0 <= c < 8 ->
  sra8_emul_t A s c a = Ok (shr_v true 8 (rbits s) c a).
Proof.
  intros HV HA Ha Hc. pose proof (avail8_16 _ _ HA). unfold sra8_emul_t.
  repeat (first [rewrite nz_l by (auto; try (apply v1_reg; auto); lia)
          | rewrite (nz_r A true) by (auto; try (apply v1_reg; auto); lia)
          | rewrite (nz_r A false) by (auto; try (apply v1_reg; auto); lia)]; cbn [bind wb]).
  rewrite i_bit_or_ok by (auto; apply v1_reg; auto). f_equal. unfold shl_v, shr_v.
  rewrite !v1_v1, lor_v1 by auto. apply v1_16_8; auto. intros. apply lane8_sra8; auto.
Qed.
Lemma lane8_of16 R a g i p : wok 16 R = true -> wok 8 R = true -> 0 <= i < R / 16 -> 0 <= p < 2 ->
  lane 8 p (lane 16 i (v1 8 R g a)) = wrap 8 (g (lane 8 (2 * i + p) a)).
Proof.
  intros H16 H8 Hi Hp. destruct (wok_spec _ _ H16) as (_ & HR & E & _). destruct (wok_spec _ _ H8) as (_ & _ & E8 & _).
  change 16 with (8 * 2) at 1. rewrite (lane_lane 8 2) by lia.
  rewrite lane_v1 by (auto; lia). do 3 f_equal. lia.
Qed.
Lemma sse_shift_l_8_ok A s a c : valid_arch A = true -> avail_int A 8 s = true -> reg (rbits s) a -> 0 <= c < 8 ->
  sse_shift_l_8 A s c a = Ok (shl_v 8 (rbits s) c a).
Proof.
  intros HV HA Ha Hc. pose proof (avail8_16 _ _ HA). unfold sse_shift_l_8.
  rewrite konst_ok by auto. cbn [bind wb]. rewrite i_bit_and_ok by (auto; apply splat_reg; auto). cbn [bind].
  rewrite (land_v2 8 (rbits s)) by (auto; apply splat_reg; auto). rewrite v2_splat by auto.
  rewrite nz_l by (auto; try (apply v1_reg; auto); lia). f_equal. unfold shl_v.
  rewrite (v1_16_8 _ _ (fun x => Z.shiftl x c)); auto.
  - rewrite v1_v1 by auto. apply v1_pt; auto. intros x Hx. apply (bits_ext 8); [lia|apply wrap_range; lia|apply wrap_range; lia|].
    intros k Hk. destruct (Z_lt_le_dec k c); bitnorm; bitdone.
  - intros x p Hx (i & Hi & ->) Hp. pose proof (lane8_of16 (rbits s) a (fun x => Z.land x (wrap 8 (Z.shiftr 255 c))) i 0 ltac:(auto) ltac:(auto) Hi ltac:(lia)) as E.
    set (y := lane 16 i _) in *. set (z := lane 8 _ a) in *. clearbody y z.
    apply (bits_ext 8); [lia|apply lane_range; lia|apply wrap_range; lia|]. intros k Hk.
    assert (p = 0 \/ p = 1) as [-> | ->] by lia; destruct (Z_lt_le_dec k c); bitnorm; try bitdone.
    pose proof (f_equal (fun v => Z.testbit v (8 + k - c)) E) as Ek. cbn beta in Ek. revert Ek. bitnorm.
    rewrite andb_false_r. intros Ek. rewrite <- Ek. f_equal; lia.
Qed.
Lemma sse_shift_r_8_ok A s a c : valid_arch A = true -> avail_int A 8 s = true -> reg (rbits s) a -> 0 <= c < 8 ->
  sse_shift_r_8 A s c a = Ok (shr_v false 8 (rbits s) c a).
Proof.
  intros HV HA Ha Hc. pose proof (avail8_16 _ _ HA). unfold sse_shift_r_8.
  rewrite konst_ok by auto. cbn [bind wb]. rewrite i_bit_and_ok by (auto; apply splat_reg; auto). cbn [bind].
  rewrite (land_v2 8 (rbits s)) by (auto; apply splat_reg; auto). rewrite v2_splat by auto.
  rewrite (nz_r A false) by (auto; try (apply v1_reg; auto); lia). f_equal. unfold shr_v.
  rewrite (v1_16_8 _ _ (fun x => Z.shiftr x c)); auto.
  - rewrite v1_v1 by auto. apply v1_pt; auto. intros x Hx. apply (bits_ext 8); [lia|apply wrap_range; lia|apply wrap_range; lia|].
    intros k Hk. destruct (Z_lt_le_dec (k + c) 8); bitnorm; rewrite ?(testbit_high 8 x) by lia; bitdone.
  - intros x p Hx (i & Hi & ->) Hp. pose proof (lane8_of16 (rbits s) a (fun x => Z.land x (wrap 8 (Z.land (Z.shiftl 255 c) 255))) i 1 ltac:(auto) ltac:(auto) Hi ltac:(lia)) as E.
    set (y := lane 16 i _) in *. set (z := lane 8 _ a) in *. clearbody y z.
    apply (bits_ext 8); [lia|apply lane_range; lia|apply wrap_range; lia|]. intros k Hk.
    assert (p = 0 \/ p = 1) as [-> | ->] by lia; destruct (Z_lt_le_dec (k + c) 8); bitnorm; rewrite ?(testbit_high 16 y) by lia; try bitdone.
    pose proof (f_equal (fun v => Z.testbit v (k + c - 8)) E) as Ek. cbn beta in Ek. revert Ek. bitnorm.
    rewrite andb_false_r. intros Ek. rewrite <- Ek. f_equal; lia.
Qed.
(** ---------- the four entry points ---------- *)
Ltac shleaf := idtac; lazymatch goal with
   | |- shl8_tab _ _ _ _ = _ => apply shl8_tab_ok; auto
   | |- shl8_sse2 _ _ _ = _ => apply shl8_sse2_ok; auto
   | |- srl8_tab _ _ _ _ = _ => apply srl8_tab_ok; auto
   | |- srl8_sse2 _ _ _ = _ => apply srl8_sse2_ok; auto
   | |- sra8_emul _ _ _ _ = _ => apply sra8_emul_ok; auto
   | |- sra8_emul_t _ _ _ _ = _ => apply sra8_emul_t_ok; auto
   | |- sse_shift_l_8 _ _ _ _ = _ => apply sse_shift_l_8_ok; auto
   | |- sse_shift_r_8 _ _ _ _ = _ => apply sse_shift_r_8_ok; auto
   | |- null_shift_l _ _ _ _ = _ => apply (null_shl_ok W8); [reflexivity|cbn [wb]; lia]
   | |- null_shift_r (st W8) _ _ _ = _ => apply (null_shr_ok true W8); [reflexivity|cbn [wb]; lia]
   | |- null_shift_r (ut W8) _ _ _ = _ => apply (null_shr_ok false W8); [reflexivity|cbn [wb]; lia]
   | |- context [konst] => rewrite konst_ok by auto; cbn [bind wb rbits]; f_equal;
      lazymatch goal with
      | |- vec_sl _ _ _ = _ => apply vec_sl_ok; [reflexivity|lia]
      | |- vec_sr _ _ _ = _ => apply (vec_shr_ok false); [reflexivity|lia]
      | |- vec_sra _ _ _ = _ => apply (vec_shr_ok true); [reflexivity|lia]
      end
   | |- context [splat_rt] => rewrite splat_small by (auto; try lia; try (intro; fcontra)); cbn [bind wb]; f_equal;
      lazymatch goal with
      | |- vec_sl _ _ _ = _ => apply vec_sl_ok; [reflexivity|lia]
      | |- vec_sr _ _ _ = _ => apply (vec_shr_ok false); [reflexivity|lia]
      | |- vec_sra _ _ _ = _ => apply (vec_shr_ok true); [reflexivity|lia]
      | |- msa_sll _ _ _ = _ => apply msa_shl_ok; [reflexivity|lia]
      | |- msa_srl _ _ _ = _ => apply (msa_shr_ok false); [reflexivity|lia]
      | |- msa_sra _ _ _ = _ => apply (msa_shr_ok true); [reflexivity|lia]
      | |- vshlq_s _ _ _ = _ => apply (neon_shr_ok true); [reflexivity|lia|lia]
      | |- vshlq_u _ _ (splat _ _ (- _)) = _ => apply (neon_shr_ok false); [reflexivity|lia|lia]
      | |- vshlq_u _ _ _ = _ => apply neon_shl_ok; [reflexivity|lia|lia]
      end
   | |- Ok _ = Ok _ => reflexivity
   end.
Theorem i_shift_l_ok A w s a c : valid_arch A = true -> avail_int A (wb w) s = true -> reg (rbits s) a ->
  0 <= c < wb w -> i_shift_l A w s a c = Ok (shl_v (wb w) (rbits s) c a).
Proof.
  intros HV HA Ha Hc. destruct w; try (apply i_shift_l_d_ok; auto; discriminate). unfold i_shift_l. cbn [wb] in *.
  destruct s; cbn [rbits] in *; lad HV HA shleaf.
Qed.
Theorem i_shift_l_t_ok A w s a c : valid_arch A = true -> avail_int A (wb w) s = true -> reg (rbits s) a ->
  0 <= c < wb w -> i_shift_l_t A w s c a = Ok (shl_v (wb w) (rbits s) c a).
Proof.
  intros HV HA Ha Hc. destruct w; try (apply i_shift_l_dt_ok; auto; discriminate). unfold i_shift_l_t. cbn [wb] in *.
  destruct s; cbn [rbits] in *; lad HV HA ltac:(idtac; lazymatch goal with |- i_shift_l _ _ _ _ _ = _ => apply (i_shift_l_ok A W8); auto | _ => shleaf end).
Qed.
Theorem i_shift_r_ok A sg w s a c : valid_arch A = true -> avail_int A (wb w) s = true -> reg (rbits s) a ->
  0 <= c < wb w -> i_shift_r A sg w s a c = Ok (shr_v sg (wb w) (rbits s) c a).
Proof.
  intros HV HA Ha Hc. destruct w; try (destruct sg; [apply i_shift_r_sd_ok|apply i_shift_r_ud_ok]; auto; discriminate).
  unfold i_shift_r. cbn [wb] in *.
  destruct sg, s; cbn [rbits] in *; lad HV HA shleaf.
Qed.
Theorem i_shift_r_t_ok A sg w s a c : valid_arch A = true -> avail_int A (wb w) s = true -> reg (rbits s) a ->
  0 <= c < wb w -> i_shift_r_t A sg w s c a = Ok (shr_v sg (wb w) (rbits s) c a).
Proof.
  intros HV HA Ha Hc. destruct w; try (destruct sg; [apply i_shift_r_sdt_ok|apply i_shift_r_udt_ok]; auto; discriminate).
  unfold i_shift_r_t. cbn [wb] in *.
  destruct sg, s; cbn [rbits] in *; lad HV HA shleaf.
Qed.
