(** Unzips and aligns select the lanes they should. *)
From Verif Require Export Proof.Shuf2x2P Proof.MoveP Model.Unzip.

(** both packs, [sat] being the saturation of a wide lane *)
Lemma pack_lsh w R (sat : Z -> Z) o x y a b : w = 8 \/ w = 16 -> R = 128 \/ R = 256 \/ R = 512 ->
  (forall j, 0 <= j < R / (2 * w) -> wrap w (sat (lane (2 * w) j x)) = lane w (2 * j + o) a) ->
  (forall j, 0 <= j < R / (2 * w) -> wrap w (sat (lane (2 * w) j y)) = lane w (2 * j + o) b) ->
  pack w R (fun i => let h := 64 / w in let k := i mod (2 * h) in
     sat (if k <? h then lane (2 * w) (h * (i / (2 * h)) + k) x else lane (2 * w) (h * (i / (2 * h)) + (k - h)) y)) =
  lsh w R (128 / w) (fun k => if k <? 64 / w then fromA (2 * k + o) else fromB (2 * (k - 64 / w) + o)) [a; b].
Proof.
  intros Hw HR HX HY.
  assert (gok w R (128 / w) = true) as HG by (destruct Hw as [-> | ->], HR as [-> | [-> | ->]]; reflexivity).
  destruct (gok_spec _ _ _ HG) as (Hk & Hp & HRp & Hn & E & E2).
  apply eq_lsh; [auto|apply pack_reg; auto|]. intros g k Hg Hkk.
  rewrite lane_pack by (auto; nia).
  assert (128 / w = 2 * (64 / w)) as E3 by (destruct Hw as [-> | ->]; reflexivity).
  assert (R / (2 * w) = 64 / w * (R / (128 / w * w))) as E4 by (destruct Hw as [-> | ->], HR as [-> | [-> | ->]]; reflexivity).
  cbv zeta. rewrite <- E3. rewrite grp_div, grp_mod by auto.
  destruct (Z.ltb_spec k (64 / w)); cbn [nth]; [rewrite HX|rewrite HY]; try (f_equal; nia); rewrite E4; split; nia.
Qed.
Lemma unsat_s w x : 0 < w -> sgn w x = x -> sats w x = x.
Proof.
  intros Hw Hx. pose proof (sgn_range w x Hw). unfold sats.
  destruct (Z.ltb_spec x (- 2 ^ (w - 1))); [lia|]. destruct (Z.ltb_spec (2 ^ (w - 1) - 1) x); [lia|reflexivity].
Qed.
Lemma unsat_u w x : 0 <= x < 2 ^ w -> satu w x = x.
Proof.
  intros Hx. unfold satu.
  destruct (Z.ltb_spec x 0); [lia|]. destruct (Z.ltb_spec (2 ^ w - 1) x); [lia|reflexivity].
Qed.
(** the high half of a wide lane, arithmetically shifted down *)
Lemma shr_sgn_hi w x : 0 < w -> Z.shiftr (sgn (2 * w) x) w = sgn w (wrap (2 * w) x / 2 ^ w).
Proof.
  intros Hw. rewrite Z.shiftr_div_pow2 by lia. unfold sgn, wrap.
  pose proof (pow2_pos w ltac:(lia)) as P.
  assert (2 ^ (2 * w) = 2 ^ w * 2 ^ w) as E by (rewrite <- Z.pow_add_r by lia; f_equal; lia).
  assert (2 ^ (2 * w - 1) = 2 ^ w * 2 ^ (w - 1)) as E1 by (rewrite <- Z.pow_add_r by lia; f_equal; lia).
  set (m := x mod 2 ^ (2 * w)).
  assert (0 <= m < 2 ^ w * 2 ^ w) as Hm by (rewrite <- E; apply Z.mod_pos_bound; nia).
  assert (0 <= m / 2 ^ w < 2 ^ w) as Hd by (split; [apply Z.div_pos; lia|apply Z.div_lt_upper_bound; lia]).
  rewrite (Z.mod_small (m / 2 ^ w)) by auto.
  rewrite E1, E. pose proof (Z.div_mod m (2 ^ w) ltac:(lia)) as DM. pose proof (Z.mod_pos_bound m (2 ^ w) P).
  assert (2 ^ w = 2 * 2 ^ (w - 1)) as E5 by (rewrite <- Z.pow_succ_r by lia; f_equal; lia).
  destruct (Z.ltb_spec m (2 ^ w * 2 ^ (w - 1))), (Z.ltb_spec (m / 2 ^ w) (2 ^ (w - 1))); try nia.
  replace (m - 2 ^ w * 2 ^ w) with (m + (- 2 ^ w) * 2 ^ w) by ring. rewrite Z.div_add by lia. ring.
Qed.
Lemma lane_hi w j a : 0 < w -> 0 <= j -> lane (2 * w) j a / 2 ^ w = lane w (2 * j + 1) a.
Proof.
  intros. rewrite (Z.mul_comm 2 w), lane_double by auto. pose proof (pow2_pos w ltac:(lia)).
  pose proof (lane_range w (2 * j) a ltac:(lia)). rewrite Z.div_add, Z.div_small by lia. lia.
Qed.
Lemma lane_lo w j a : 0 < w -> 0 <= j -> wrap w (lane (2 * w) j a) = lane w (2 * j) a.
Proof.
  intros. rewrite (Z.mul_comm 2 w), lane_double by auto. pose proof (pow2_pos w ltac:(lia)).
  pose proof (lane_range w (2 * j) a ltac:(lia)). unfold wrap. rewrite Z.mod_add, Z.mod_small by lia. lia.
Qed.
Section P.
  Variables w R : Z.
  Hypothesis Hw : w = 8 \/ w = 16.
  Hypothesis HR : R = 128 \/ R = 256 \/ R = 512.
  Let wk2 : wok (2 * w) R = true.
  Proof. destruct Hw as [-> | ->], HR as [-> | [-> | ->]]; reflexivity. Qed.
  Let wp : 0 < w. Proof. lia. Qed.
  Lemma sra_hi a j : 0 <= j < R / (2 * w) ->
    wrap w (sats w (sgn (2 * w) (lane (2 * w) j (mm_sra (2 * w) R a w)))) = lane w (2 * j + 1) a.
  Proof.
    intros Hj. unfold mm_sra. rewrite lane_v1 by auto. replace (w <? 2 * w) with true by (symmetry; apply Z.ltb_lt; lia).
    rewrite shr_sgn_hi, wrap_lane, sgn_wrap, lane_hi by lia.
    rewrite (sgn_id (2 * w) (sgn w _)).
    - rewrite unsat_s; auto.
      + rewrite wrap_sgn by auto. apply wrap_lane.
      + apply sgn_id; auto. apply sgn_range; auto.
    - lia.
    - pose proof (sgn_range w (lane w (2 * j + 1) a) wp).
      assert (2 ^ (w - 1) <= 2 ^ (2 * w - 1)) by (apply Z.pow_le_mono_r; lia). lia.
  Qed.
  Lemma sse_unzip_hi_ok a b : sse_unzip_hi w R a b = lsh w R (128 / w) (p_unzip_hi (128 / w)) [a; b].
  Proof.
    unfold sse_unzip_hi, mm_packs.
    rewrite (pack_lsh w R (fun x => sats w (sgn (2 * w) x)) 1 _ _ a b); auto using sra_hi.
    apply lsh_ext; [destruct Hw as [-> | ->], HR as [-> | [-> | ->]]; reflexivity|]. intros k Hk. unfold p_unzip_hi.
    assert (128 / w / 2 = 64 / w) as -> by (destruct Hw as [-> | ->]; reflexivity). reflexivity.
  Qed.
  Lemma and_lo a j : 0 <= j < R / (2 * w) ->
    wrap w (satu w (sgn (2 * w) (lane (2 * w) j (Z.land a (mm_srl (2 * w) R (ones R) w))))) = lane w (2 * j + 0) a.
  Proof.
    intros Hj. rewrite lane_land by lia. unfold mm_srl. rewrite lane_v1 by auto.
    replace (w <? 2 * w) with true by (symmetry; apply Z.ltb_lt; lia).
    assert (lane (2 * w) j (ones R) = 2 ^ (2 * w) - 1) as ->.
    { pose proof (wok_spec _ _ wk2) as (? & ? & ? & ?).
      replace (2 ^ (2 * w) - 1) with (Z.ones (2 * w)) by (rewrite Z.ones_equiv; lia).
      apply Z.bits_inj'. intros k Hk. rewrite testbit_lane by lia.
      unfold ones. destruct (Z.ltb_spec k (2 * w)).
      - replace (2 ^ R - 1) with (Z.ones R) by (rewrite Z.ones_equiv; lia). rewrite !Z.ones_spec_low by nia. reflexivity.
      - rewrite Z.ones_spec_high by lia. reflexivity. }
    assert (wrap (2 * w) (Z.shiftr (2 ^ (2 * w) - 1) w) = Z.ones w) as -> by (destruct Hw as [-> | ->]; reflexivity).
    rewrite Z.land_ones by lia. fold (wrap w (lane (2 * w) j a)). rewrite lane_lo by lia.
    pose proof (lane_range w (2 * j) a ltac:(lia)).
    rewrite sgn_id; [|lia|].
    - rewrite unsat_u by auto. rewrite wrap_lane. f_equal. lia.
    - assert (2 ^ w <= 2 ^ (2 * w - 1)) by (apply Z.pow_le_mono_r; lia). lia.
  Qed.
  Lemma sse_unzip_lo_ok a b : sse_unzip_lo w R a b = lsh w R (128 / w) (p_unzip_lo (128 / w)) [a; b].
  Proof.
    unfold sse_unzip_lo, mm_packus. cbv zeta.
    rewrite (pack_lsh w R (fun x => satu w (sgn (2 * w) x)) 0 _ _ a b); auto using and_lo.
    apply lsh_ext; [destruct Hw as [-> | ->], HR as [-> | [-> | ->]]; reflexivity|]. intros k Hk. unfold p_unzip_lo.
    assert (128 / w / 2 = 64 / w) as -> by (destruct Hw as [-> | ->]; reflexivity).
    rewrite !Z.add_0_r. reflexivity.
  Qed.
  Lemma sll_sra a j : 0 <= j < R / (2 * w) ->
    wrap w (sats w (sgn (2 * w) (lane (2 * w) j (mm_sra (2 * w) R (mm_sll (2 * w) R a w) w)))) = lane w (2 * j + 0) a.
  Proof.
    intros Hj. rewrite sra_hi by auto. rewrite <- lane_hi by lia. unfold mm_sll. rewrite lane_v1 by auto.
    replace (w <? 2 * w) with true by (symmetry; apply Z.ltb_lt; lia).
    rewrite Z.add_0_r, <- (lane_lo w j a) by lia. rewrite Z.shiftl_mul_pow2 by lia.
    unfold wrap. replace (2 ^ (2 * w)) with (2 ^ w * 2 ^ w) by (rewrite <- Z.pow_add_r by lia; f_equal; lia).
    pose proof (pow2_pos w ltac:(lia)). rewrite Z.mul_mod_distr_r by lia. apply Z.div_mul. lia.
  Qed.
End P.
Lemma sse2_unzip8_lo_ok a b : sse2_unzip8_lo a b = lsh 16 128 8 (p_unzip_lo 8) [a; b].
Proof.
  unfold sse2_unzip8_lo, mm_packs.
  rewrite (pack_lsh 16 128 (fun x => sats 16 (sgn (2 * 16) x)) 0 _ _ a b); [|auto|auto|apply (sll_sra 16 128); auto|apply (sll_sra 16 128); auto].
  apply lsh_ext; [reflexivity|]. intros k Hk. change (128 / 16) with 8 in Hk. unfold p_unzip_lo. rewrite !Z.add_0_r. reflexivity.
Qed.
Lemma vec_pack_ok w a b : w = 8 \/ w = 16 -> vec_pack w a b = lsh w 128 (128 / w) (p_unzip_lo (128 / w)) [a; b].
Proof.
  intros Hw.
  assert (gok w 128 (128 / w) = true) as HG by (destruct Hw as [-> | ->]; reflexivity).
  destruct (gok_spec _ _ _ HG) as (Hk & Hp & HRp & Hn & E & E2).
  apply eq_lsh; [auto|apply pack_reg; auto|]. intros g k Hg Hkk.
  assert (g = 0) as -> by (destruct Hw as [-> | ->]; cbn in Hg; lia).
  rewrite !Z.mul_0_r, !Z.add_0_l. unfold vec_pack. rewrite lane_pack by (auto; lia). cbv zeta. unfold p_unzip_lo.
  assert (128 / w / 2 = 64 / w) as -> by (destruct Hw as [-> | ->]; reflexivity).
  destruct (Z.ltb_spec k (64 / w)); cbn [nth]; rewrite lane_lo by lia; f_equal; lia.
Qed.
Lemma null_unzip_lo_ok w a b : w = 8 \/ w = 16 \/ w = 32 -> null_unzip w false a b = lsh w 128 (128 / w) (p_unzip_lo (128 / w)) [a; b].
Proof. intros [-> | [-> | ->]]; (apply lsh_extb; [reflexivity|vm_compute; reflexivity]). Qed.
Lemma null_unzip_hi_ok w a b : w = 8 \/ w = 16 \/ w = 32 -> null_unzip w true a b = lsh w 128 (128 / w) (p_unzip_hi (128 / w)) [a; b].
Proof. intros [-> | [-> | ->]]; (apply lsh_extb; [reflexivity|vm_compute; reflexivity]). Qed.
Ltac fix_n := repeat match goal with |- context [en ?e] => let x := eval compute in (en e) in change (en e) with x in * end.
Lemma i_shuffle2_ok A e s a0 a1 b0 b1 a b : valid_arch A = true -> avail_et A e s = true -> e = I32 \/ e = F32 ->
  0 <= a0 < 4 -> 0 <= a1 < 4 -> 0 <= b0 < 4 -> 0 <= b1 < 4 -> reg (rbits s) a -> reg (rbits s) b ->
  i_shuffle2 A e s a0 a1 b0 b1 a b = Ok (lsh 32 (rbits s) 4 (p_shuffle2 a0 a1 b0 b1) [a; b]).
Proof.
  intros HV HA He H0 H1 H2 H3 Ha Hb. unfold i_shuffle2. rewrite i_shuffle4x2_ok by (auto; lia). f_equal.
  apply lsh_ext; [destruct s; reflexivity|]. intros k Hk. unfold p_shuffle4x2, p_shuffle2, p_cat.
  four k Hk; cbn [Z.eqb Pos.eqb].
  1,2: match goal with |- context [?x <? 4] => destruct (Z.ltb_spec x 4); [reflexivity|lia] end.
  1,2: match goal with |- context [?x <? 4] => destruct (Z.ltb_spec x 4); [lia|] end; do 2 f_equal; lia.
Qed.
Lemma shuffle_mask_hi8_ok A a b : valid_arch A = true -> use_sse2 A = false -> reg 128 a -> reg 128 b ->
  shuffle_mask A R128 1 [1; 3; 5; 7; 9; 11; 13; 15; 17; 19; 21; 23; 25; 27; 29; 31] a b = Ok (lsh 8 128 16 (p_unzip_hi 16) [a; b]).
Proof.
  intros HV HB Ha Hb. unfold shuffle_mask, make_shuffle_bytes16_mask.
  rewrite shuf_mask_ok by (auto; vm_compute; reflexivity). okc. cbn [rbits]. selg 16.
Qed.
Lemma shuffle_mask_hi16_ok A a b : valid_arch A = true -> use_sse2 A = false -> reg 128 a -> reg 128 b ->
  shuffle_mask A R128 2 [1; 3; 5; 7; 9; 11; 13; 15] a b = Ok (lsh 16 128 8 (p_unzip_hi 8) [a; b]).
Proof.
  intros HV HB Ha Hb. unfold shuffle_mask, make_shuffle_bytes16_mask.
  rewrite shuf_mask_ok by (auto; vm_compute; reflexivity). okc. cbn [rbits]. selg 16.
Qed.
Ltac unz := idtac; lazymatch goal with
  | |- shuffle_mask _ _ 1 _ _ _ = _ => apply shuffle_mask_hi8_ok; auto
  | |- shuffle_mask _ _ 2 _ _ _ = _ => apply shuffle_mask_hi16_ok; auto
  | |- shuffle_mask _ _ 4 _ _ _ = _ => rewrite shuffle_mask_4_ok by (first [lia|auto]); okc; selg 16
  | |- i_shuffle2 _ _ _ _ _ _ _ _ _ = _ => rewrite i_shuffle2_ok by (first [lia|auto]); cbn [rbits]; okc; selg 16
  | |- Ok (null_unzip _ false _ _) = _ => okc; apply null_unzip_lo_ok; auto
  | |- Ok (null_unzip _ true _ _) = _ => okc; apply null_unzip_hi_ok; auto
  | |- Ok (vec_pack _ _ _) = _ => okc; apply vec_pack_ok; auto
  | |- Ok (sse2_unzip8_lo _ _) = _ => okc; apply sse2_unzip8_lo_ok
  | |- Ok (sse_unzip_lo _ _ _ _) = _ => okc; apply sse_unzip_lo_ok; auto
  | |- Ok (sse_unzip_hi _ _ _ _) = _ => okc; apply sse_unzip_hi_ok; auto
  | |- _ => okc; selg 16 end.
Lemma i_unzip_lo_ok A e s a b : valid_arch A = true -> avail_et A e s = true -> reg (rbits s) a -> reg (rbits s) b ->
  i_unzip_lo A e s a b = Ok (lsh (eb e) (rbits s) (en e) (p_unzip_lo (en e)) [a; b]).
Proof.
  intros HV HA Ha Hb.
  destruct e; cbn [i_unzip_lo].
  4,6: rewrite i_zip_ok by auto; okc; cbn [eb]; fix_n; destruct s; (apply lsh_extb; [reflexivity|vm_compute; reflexivity]).
  all: cbn [eb avail_et] in *; fix_n; unfold i_unzip16_lo, i_unzip8_lo, i_unzip4_lo, use_neon_no_flt_sp; destruct s; cbn [rbits] in *;
    lad HV HA unz.
Qed.
Lemma i_unzip_hi_ok A e s a b : valid_arch A = true -> avail_et A e s = true -> reg (rbits s) a -> reg (rbits s) b ->
  i_unzip_hi A e s a b = Ok (lsh (eb e) (rbits s) (en e) (p_unzip_hi (en e)) [a; b]).
Proof.
  intros HV HA Ha Hb.
  destruct e; cbn [i_unzip_hi].
  4,6: rewrite i_zip_ok by auto; okc; cbn [eb]; fix_n; destruct s; (apply lsh_extb; [reflexivity|vm_compute; reflexivity]).
  all: cbn [eb avail_et] in *; fix_n; unfold i_unzip16_hi, i_unzip8_hi, i_unzip4_hi, use_neon_no_flt_sp; destruct s; cbn [rbits] in *;
    lad HV HA unz.
Qed.
Lemma null_align_ok e sh a b : 0 <= sh <= en e ->
  null_align (eb e) sh a b = lsh (eb e) 128 (en e) (p_align (en e) sh) [a; b].
Proof.
  intros H. unfold null_align. apply lsh_ext; [destruct e; reflexivity|]. intros k Hk. unfold p_align. fold (en e).
  destruct (Z.ltb_spec k (en e - sh)), (Z.ltb_spec (k + sh) (en e)); try lia; [reflexivity|do 2 f_equal; lia].
Qed.
Lemma i_align16_ok A s sh a b : valid_arch A = true -> avail_int A 8 s = true -> reg (rbits s) a -> reg (rbits s) b ->
  0 <= sh < 16 -> (sh =? 0) = false -> i_align16 A s sh a b = Ok (lsh 8 (rbits s) 16 (p_align 16 sh) [a; b]).
Proof.
  intros HV HA Ha Hb Hs Hn. unfold i_align16.
  destruct s; cbn [rbits] in *; lad HV HA ltac:(idtac; lazymatch goal with
  | |- Ok (null_align _ _ _ _) = _ => okc; apply (null_align_ok I8); fix_n; lia
  | |- bind _ _ = _ => rewrite i_move_l_wrapper_ok, i_move_r_wrapper_ok by (first [assumption|reflexivity|fix_n;lia]); cbn [bind eb rbits]; fix_n; okc; selg 16
  | |- _ => okc; selg 16 end).
Qed.
Ltac al := idtac; lazymatch goal with
  | |- Ok (null_align 16 _ _ _) = _ => okc; apply (null_align_ok I16); fix_n; lia
  | |- Ok (null_align 32 _ _ _) = _ => okc; apply (null_align_ok I32); fix_n; lia
  | |- Ok (null_align 64 _ _ _) = _ => okc; apply (null_align_ok I64); fix_n; lia
  | |- i_align16 _ _ _ _ _ = _ => rewrite i_align16_ok by (first [assumption|reflexivity|lia|rewrite Z.eqb_neq in *; lia]); cbn [rbits]; okc; selg 16
  | |- i_shuffle4x2 _ _ _ _ _ _ _ _ _ = _ => rewrite i_shuffle4x2_ok by (first [assumption|reflexivity|lia|auto]); cbn [rbits]; okc; selg 16
  | |- i_shuffle2x2 _ _ _ _ _ _ _ = _ => rewrite i_shuffle2x2_ok by (first [assumption|reflexivity|lia|unfold ok2x2; rw_flags; reflexivity|auto]); cbn [rbits eb]; okc; selg 16
  | |- bind _ _ = _ => rewrite i_move_l_wrapper_ok, i_move_r_wrapper_ok by (first [assumption|reflexivity|fix_n;lia]); cbn [bind eb rbits]; fix_n; okc; selg 16
  | |- _ => okc; first [selg 16 | selg 32 | selg 64] end.
Lemma i_align_ok A e s sh a b : valid_arch A = true -> avail_et A e s = true -> reg (rbits s) a -> reg (rbits s) b ->
  0 <= sh <= en e ->
  i_align A e s sh a b = Ok (lsh (eb e) (rbits s) (en e) (p_align (en e) sh) [a; b]).
Proof.
  intros HV HA Ha Hb Hs. unfold i_align.
  destruct (sh =? 0) eqn:E0.
  { apply Z.eqb_eq in E0. subst sh. okc. destruct e; cbn [eb]; fix_n; destruct s; cbn [rbits] in *; selg 16. }
  destruct (sh =? en e) eqn:E1.
  { apply Z.eqb_eq in E1. subst sh. okc. destruct e; cbn [eb]; fix_n; destruct s; cbn [rbits] in *; selg 16. }
  assert (0 <= sh < en e) as Hs' by (apply Z.eqb_neq in E1; lia). clear Hs E1.
  destruct e; cbn [avail_et eb] in *; [apply i_align16_ok; auto|..];
  match goal with |- ?f _ _ _ _ _ = _ => unfold f end; unfold use_neon_no_flt_sp, use_neon64, use_neon32; change (en I16) with 8 in *;
  change (en I32) with 4 in *; change (en F32) with 4 in *; change (en I64) with 2 in *; change (en F64) with 2 in *;
  destruct s; cbn [rbits] in *.
  all: lad HV HA al.
Qed.
