From Verif Require Import Proof.SelTac Proof.MoveP Proof.PermuteP Proof.ShiftP.
From Verif Require Export Proof.ConvertP.

Lemma vext_pack sg w a : vmovl sg w a = pack (2 * w) 128 (fun i => xt sg w (lane w i a)).
Proof. destruct sg; reflexivity. Qed.
Lemma comb256_pack64 f g : mm_combine256 (pack 64 256 f) (pack 64 256 g) = pack 64 512 (fun i => if i <? 4 then f i else g (i - 4)).
Proof.
  unfold mm_combine256. apply (reg_lanes 64 512); try reflexivity; try (apply pack_reg; reflexivity).
  intros i Hi. change (512 / 64) with 8 in Hi. rewrite (lane_pack 64 512) by (try reflexivity; exact Hi).
  replace i with (i / 4 * 4 + i mod 4) at 1 by (rewrite Z.mul_comm, <- Z.div_mod by lia; lia).
  assert (0 <= i / 4 < 2) by (split; [apply Z.div_pos; lia|apply Z.div_lt_upper_bound; lia]).
  pose proof (Z.mod_pos_bound i 4 ltac:(lia)). pose proof (Z.div_mod i 4 ltac:(lia)) as E.
  rewrite <- (lane_lane 64 4) by lia. change (64 * 4) with 256.
  rewrite lane_pack by (try reflexivity; change (512 / 256) with 2; lia).
  destruct (Z.eqb_spec (i / 4) 0) as [E0|E0]; destruct (Z.ltb_spec i 4); try lia.
  - rewrite wrap_small by (apply (pack_reg 64 256); reflexivity). rewrite lane_pack by (try reflexivity; change (256 / 64) with 4; lia). do 2 f_equal. lia.
  - rewrite wrap_small by (apply (pack_reg 64 256); reflexivity). rewrite lane_pack by (try reflexivity; change (256 / 64) with 4; lia). do 2 f_equal. lia.
Qed.
Lemma comb_xt sg w i a b : (if i <? 4 then xt sg w a else xt sg w b) = xt sg w (if i <? 4 then a else b).
Proof. destruct (i <? 4); reflexivity. Qed.
(** one register of the result, already a [pack] of extended lanes *)
Ltac packleaf :=
  apply pack_ext; [reflexivity|]; let i := fresh "i" in let Hi := fresh "Hi" in intros i Hi;
  rewrite wrap_extend; cbv beta; try (match goal with |- context [?i <? 4] => destruct (Z.ltb_spec i 4) end); unfold shr_v, vget_low, vget_high; cbv beta zeta;
  repeat rewrite lane_v1 by first [reflexivity|lpos]; repeat rewrite lane_pack by first [reflexivity|lpos];
  cbv beta zeta;
  repeat first [rewrite lane_of_zero | rewrite Z.mul_0_r | rewrite Z.add_0_r];
  repeat first [rewrite sj8 by (apply lane_range; lia) | rewrite sj16 by (apply lane_range; lia) | rewrite sj32 by (apply lane_range; lia) | rewrite sgn_hi8 by (apply lane_range; lia)];
  unfold xt; cbv iota; lane_norm; lane_eq.
Ltac cleaf HV :=
  repeat first
  [ rewrite (zip_ok _ I8 8 16) by first [assumption|reflexivity|apply reg0; lia|apply v1_reg; reflexivity]; cbn [bind]
  | rewrite (zip_ok _ I16 16 8) by first [assumption|reflexivity|apply reg0; lia|apply v1_reg; reflexivity]; cbn [bind]
  | rewrite (zip_ok _ I32 32 4) by first [assumption|reflexivity|apply reg0; lia|apply v1_reg; reflexivity]; cbn [bind]
  | rewrite (i_shift_r_t_ok _ true W8 R128) by first [assumption|reflexivity|cbn; lia|apply pack_reg; reflexivity]; cbn [bind wb rbits]
  | rewrite (i_shift_r_t_ok _ true W16 R128) by first [assumption|reflexivity|cbn; lia|apply pack_reg; reflexivity]; cbn [bind wb rbits]
  | rewrite (i_shift_r_t_ok _ true W32 R128) by first [assumption|reflexivity|cbn; lia|apply pack_reg; reflexivity]; cbn [bind wb rbits]
  | rewrite mv8_ok by first [assumption|lia|apply x128_reg]; cbn [bind]
  | rewrite mv16_ok by first [assumption|lia|apply x128_reg]; cbn [bind]
  | rewrite mv32_ok by first [assumption|lia|apply x128_reg]; cbn [bind]
  | rewrite zip_wide8 | rewrite zip_wide16 | rewrite zip_wide32 
  | rewrite null_widen_ok by (unfold wpair; auto) ];
  wleaf; rewrite ?mm_cvt_pack, ?vext_pack, ?comb256_pack64; first [reflexivity | unfold vmovl_s, vmovl_u, vec_unpackh, vec_unpackl, v1, shr_v; packleaf].

Ltac cvgo HV f :=
  unfold f, per, vlen, vreg, fast_int, combine2, avail_int, zip_pair, i_split1;
  cbn [Z.leb Z.compare Pos.compare Pos.compare_cont];
  destruct (rconf_ok _ HV); rw_flags; try solve [vimp HV]; cvnorm;
  fam HV; repeat split_if; first [ solve [vimp HV] | cleaf HV ].
Lemma i_ext_8_16_ok A sg s a : valid_arch A = true -> avail_int A 8 s = true -> reg (rbits s) a ->
  cv 8 16 s (vreg A 16 (rbits s * 16 / 8)) (s_extend sg 8 16) (per A 8 16 s) a (i_ext_8_16 A sg s a).
Proof.
  intros HV HA Ha. destruct s; cbn [rbits avail_int Z.leb Z.compare Pos.compare Pos.compare_cont] in Ha, HA; [clear HA|..]; cvgo HV i_ext_8_16.
Qed.
Lemma i_ext_16_32_ok A sg s a : valid_arch A = true -> avail_int A 16 s = true -> reg (rbits s) a ->
  cv 16 32 s (vreg A 32 (rbits s * 32 / 16)) (s_extend sg 16 32) (per A 16 32 s) a (i_ext_16_32 A sg s a).
Proof.
  intros HV HA Ha. destruct s; cbn [rbits avail_int Z.leb Z.compare Pos.compare Pos.compare_cont] in Ha, HA; [clear HA|..]; cvgo HV i_ext_16_32.
Qed.
Lemma i_ext_32_64_ok A sg s a : valid_arch A = true -> avail_int A 32 s = true -> reg (rbits s) a ->
  cv 32 64 s (vreg A 64 (rbits s * 64 / 32)) (s_extend sg 32 64) (per A 32 64 s) a (i_ext_32_64 A sg s a).
Proof.
  intros HV HA Ha. destruct s; cbn [rbits avail_int Z.leb Z.compare Pos.compare Pos.compare_cont] in Ha, HA; [clear HA|..]; cvgo HV i_ext_32_64.
Qed.
