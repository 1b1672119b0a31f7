(** The byte shuffles with zeroing, and the byte shuffles of all element types. *)
From Verif Require Export Proof.BytesP Proof.BlendP Proof.CmpP Proof.ShiftP Model.ZBytes Spec.ByteShuf Base.ShufLift Proof.PermuteP.

(** facts about all bytes *)
Lemma byte_all (f : Z -> bool) : forallb f (zrange 256) = true -> forall c, 0 <= c < 256 -> f c = true.
Proof. intros H c Hc. apply (forallb_zrange _ _ H). lia. Qed.
Lemma land80 c : 0 <= c < 256 -> negb (Z.land c 128 =? 0) = (128 <=? c).
Proof. intros. apply Bool.eqb_prop. revert c H. apply byte_all. vm_compute. reflexivity. Qed.
Lemma land0f c : 0 <= c < 256 -> Z.land c 15 = c mod 16.
Proof. intros. apply Z.eqb_eq. revert c H. apply byte_all. vm_compute. reflexivity. Qed.

Lemma null_zb_s a b m : mokz 128 32 m ->
  pack 8 128 (fun i =>
        let j := Z.land (lane 8 i m) 0x0f in
        let which := lane 8 i m <? 0x10 in
        let zero := negb (Z.land (lane 8 i m) 0x80 =? 0) in
        if zero then 0 else if which then lane 8 j a else lane 8 j b) = zb 128 a b m.
Proof.
  intros Hm. zstart m Hm. rewrite land80, land0f by (change 256 with (2 ^ 8); lia).
  destruct (Z.leb_spec 128 (lane 8 i m)); auto. destruct (Z.ltb_spec (lane 8 i m) 16).
  - rewrite Z.mod_small by lia. auto.
  - f_equal. m16 1.
Qed.
Lemma null_pzb_s a b m : mokz 128 16 m ->
  pack 8 128 (fun i =>
        let j := Z.land (lane 8 i m) 0x0f in
        let zero := negb (Z.land (lane 8 i m) 0x80 =? 0) in
        if zero then 0 else lane 8 j a) = zb 128 a b m.
Proof.
  intros Hm. zstart m Hm. rewrite land80, land0f by (change 256 with (2 ^ 8); lia).
  destruct (Z.leb_spec 128 (lane 8 i m)); auto.
  rewrite Z.mod_small by lia. leb_lia; auto.
Qed.
Lemma mokz_weak R m : mokz R 16 m -> mokz R 32 m.
Proof. intros H i Hi. specialize (H i Hi). cbv zeta in *. lia. Qed.
#[global] Hint Resolve mokz_weak : core.
(** AltiVec: select modulo 32, then clear the bytes whose mask byte is negative *)
Lemma altivec_z a b m : mokz 128 32 m ->
  Z.ldiff (vec_perm a b m) (shr_v true 8 128 7 m) = zb 128 a b m.
Proof.
  intros Hm. apply (reg_lanes 8 128); auto; try apply pack_reg; auto.
  { apply ldiff_reg'; auto; apply pack_reg; auto. }
  intros i Hi. specialize (Hm i Hi). cbv zeta in *. pose proof (lane_range 8 i m ltac:(lia)) as Hr.
  rewrite lane_ldiff by lia. unfold shr_v. rewrite lane_v1 by auto. unfold zb. rewrite lane_pack by auto.
  rewrite wrap_zbyte. cbv zeta. unfold zbyte. rewrite i16 by auto. rewrite Z.mul_0_r, !Z.add_0_l.
  assert (HS : wrap 8 (Z.shiftr (sgn 8 (lane 8 i m)) 7) = tf 8 (128 <=? lane 8 i m)).
  { generalize (lane 8 i m) Hr. clear. intros c Hc. apply Z.eqb_eq. revert c Hc. apply byte_all. vm_compute. reflexivity. }
  rewrite HS. destruct (Z.leb_spec 128 (lane 8 i m)); cbn [tf].
  - generalize (lane_range 8 i (vec_perm a b m) ltac:(lia)). generalize (lane 8 i (vec_perm a b m)). clear.
    intros c Hc. apply Z.eqb_eq. revert c Hc. apply byte_all. vm_compute. reflexivity.
  - rewrite Z.ldiff_0_r. unfold vec_perm. rewrite lane_v1 by auto. cbv zeta.
    rewrite (Z.mod_small (lane 8 i m) 32) by lia.
    destruct (Z.ltb_spec (lane 8 i m) 16); apply wrap_lane.
Qed.
Lemma vec_perm_mod a b m : reg 128 (vec_perm a b m).
Proof. apply pack_reg; auto. Qed.
(** SSSE3: choose between the two pshufb results by the low five bits *)
Lemma ssse3_z a b m : mokz 128 32 m ->
  pack 8 128 (fun i => if sgn 8 (lane 8 i (Z.land m (splat 8 128 31))) <? sgn 8 (lane 8 i (splat 8 128 16))
                       then lane 8 i (mm_shuffle_epi8 128 a m) else lane 8 i (mm_shuffle_epi8 128 b m)) = zb 128 a b m.
Proof.
  intros Hm. apply pack_ext; auto. intros i Hi. specialize (Hm i Hi). cbv zeta in *.
  pose proof (lane_range 8 i m ltac:(lia)) as Hr. rewrite lane_land by lia. rewrite !lane_splat by auto.
  unfold mm_shuffle_epi8. rewrite !lane_pack by auto. unfold zbyte. rewrite i16 by auto.
  rewrite Z.mul_0_r, !Z.add_0_l.
  assert (HS : forall c, 0 <= c < 256 ->
     implb ((c <? 32) || (128 <=? c) && (c <? 160)) 
       (Bool.eqb (sgn 8 (Z.land c (wrap 8 31)) <? sgn 8 (wrap 8 16)) (c mod 128 <? 16)) = true).
  { apply byte_all. vm_compute. reflexivity. }
  specialize (HS _ Hr). rewrite (proj2 (orb_true_iff _ _)) in HS.
  2:{ rewrite andb_true_iff, !Z.ltb_lt, Z.leb_le. lia. }
  cbn [implb] in HS. apply Bool.eqb_prop in HS. rewrite HS. clear HS.
  destruct Hm as [Hm|Hm].
  - rewrite (Z.mod_small (lane 8 i m) 128) by lia. leb_lia; rewrite wrap_lane; f_equal; f_equal.
    + apply Z.mod_small. lia.
    + m16 1.
  - destruct (128 <=? lane 8 i m) eqn:E; [|apply Z.leb_gt in E; lia]. destruct (_ <? _); reflexivity.
Qed.

Ltac zleaf := idtac; f_equal;
  first [ rewrite combine_halves by auto; rewrite vtbl_halves by auto; solve [apply vtbl1_z; auto]
        | rewrite !combine_halves by auto; rewrite vtbl_halves by auto; solve [apply vtbl2_z; auto]
        | solve [apply null_pzb_s; auto] | solve [apply null_zb_s; auto]
        | solve [apply pshufb_z; auto] | solve [apply vtbl1_z; auto]
        | solve [apply vtbl2_z; auto] | solve [apply vshf_z; auto]
        | solve [apply perm_epi8_z; auto] | solve [apply blendv_z; auto] ].
Lemma neon_pb A a m : valid_arch A = true -> use_neon A = true -> reg 128 a -> reg 128 m -> mokz 128 16 m ->
  i_permute_bytes16 A R128 a m = Ok (zb 128 a a m).
Proof.
  intros HV HN Ha Hm HM. unfold i_permute_bytes16, use_neon32, use_neon64.
  fam HV; repeat split_if; try fcontra; zleaf.
Qed.
Lemma neon_sb A a b m : valid_arch A = true -> use_neon A = true -> reg 128 a -> reg 128 b -> reg 128 m -> mokz 128 32 m ->
  i_shuffle_bytes16 A R128 a b m = Ok (zb 128 a b m).
Proof.
  intros HV HN Ha Hb Hm HM. unfold i_shuffle_bytes16, use_neon32, use_neon64.
  fam HV; repeat split_if; try fcontra; try (vimp HV); zleaf.
Qed.
Lemma ssse3_pb A a m : valid_arch A = true -> use_ssse3 A = true -> reg 128 a -> reg 128 m -> mokz 128 16 m ->
  i_permute_bytes16 A R128 a m = Ok (zb 128 a a m).
Proof.
  intros HV HN Ha Hm HM. unfold i_permute_bytes16, use_neon32, use_neon64.
  fam HV; repeat split_if; try fcontra; zleaf.
Qed.

Ltac zlad HV := repeat split_if; try fcontra; try (vimp HV); try zleaf.
Theorem i_permute_zbytes16_ok A s a m : valid_arch A = true -> avail_int A 8 s = true -> has_permute_bytes A = true ->
  reg (rbits s) a -> reg (rbits s) m -> mokz (rbits s) 16 m ->
  i_permute_zbytes16 A s a m = Ok (zb (rbits s) a a m).
Proof.
  intros HV HA HB Ha Hm HM. unfold i_permute_zbytes16. unfold has_permute_bytes in HB.
  pose proof (ssse3_pb A a m HV) as H1. pose proof (neon_pb A a m HV) as H2.
  pose proof (i_shift_r_t_ok A true W8 R128 m 7 HV) as HS. cbn [wb rbits] in HS.
  assert (HP : use_altivec A = true -> reg 128 m -> i_permute_bytes16 A R128 a m = Ok (vec_perm a a m)).
  { intros HA'. unfold i_permute_bytes16, use_neon32, use_neon64. intros _. fam HV; repeat split_if; try fcontra; try (vimp HV); reflexivity. }
  destruct s; cbn [rbits] in *.
  - destruct (use_null A) eqn:EN; [zleaf|]. destruct (use_ssse3 A) eqn:E3; [apply H1; auto|].
    destruct (use_neon A) eqn:ENE; [apply H2; auto|]. cbn [orb].
    destruct (use_altivec A) eqn:EA.
    { rewrite HS by (auto; lia). cbn [bind]. rewrite HP by auto. cbn [bind].
      rewrite (i_bit_andnot_ok A W8 R128) by (auto using vec_perm_mod; apply pack_reg; auto). f_equal. apply altivec_z; auto. }
    destruct (use_msa A) eqn:EM; [zleaf|]. exfalso. clear H1 H2 HS HP HM Ha Hm.
    revert HB. cbn [negb]. fam HV; rw_flags; cbn; try discriminate; try fcontra; vimp HV.
  - cbn in HA. rewrite HA. zleaf.
  - cbn in HA. rewrite HA. zleaf.
Qed.
Theorem i_shuffle_zbytes16_ok A s a b m : valid_arch A = true -> avail_int A 8 s = true -> has_shuffle_bytes A = true ->
  reg (rbits s) a -> reg (rbits s) b -> reg (rbits s) m -> mokz (rbits s) 32 m ->
  i_shuffle_zbytes16 A s a b m = Ok (zb (rbits s) a b m).
Proof.
  intros HV HA HB Ha Hb Hm HM. unfold i_shuffle_zbytes16. unfold has_shuffle_bytes in HB.
  pose proof (neon_sb A a b m HV) as H2.
  pose proof (i_shift_r_t_ok A true W8 R128 m 7 HV) as HS. cbn [wb rbits] in HS.
  assert (HP : use_altivec A = true -> reg 128 m -> i_shuffle_bytes16 A R128 a b m = Ok (vec_perm a b m)).
  { intros HA'. unfold i_shuffle_bytes16, use_neon32, use_neon64. intros _. fam HV; repeat split_if; try fcontra; try (vimp HV); reflexivity. }
  destruct s; cbn [rbits] in *.
  - destruct (use_null A) eqn:EN; [zleaf|]. destruct (use_xop A) eqn:EX; [zleaf|].
    destruct (use_sse41 A) eqn:E4; [zleaf|].
    destruct (use_ssse3 A) eqn:E3.
    { rewrite (konst_ok A W8 R128) by auto. cbn [bind wb rbits].
      rewrite (i_bit_and_ok A W8 R128) by (auto; apply pack_reg; auto). cbn [bind wb rbits].
      rewrite (konst_ok A W8 R128) by auto. cbn [bind wb rbits].
      pose proof (i_cmp_lt_ok A HV true W8 R128 (Z.land m (splat 8 128 31)) (splat 8 128 16)) as HC.
      cbn [wb rbits] in HC. specialize (HC eq_refl ltac:(apply land_reg'; auto; apply pack_reg; auto) ltac:(apply pack_reg; auto) eq_refl).
      apply Rok_ex in HC as (k & EK & HK). rewrite EK. cbn [bind].
      unfold i_blend_m. rewrite (sel_m_ok A W8 R128 HV eq_refl _ (fun a b p Ha Hb => i_blend_ok A W8 R128 HV eq_refl a b p Ha Hb)
         true _ _ k _ ltac:(apply shuffle_epi8_reg; auto) ltac:(apply shuffle_epi8_reg; auto) HK).
      f_equal. apply ssse3_z; auto. }
    destruct (use_neon A) eqn:ENE; [apply H2; auto|].
    destruct (use_altivec A) eqn:EA.
    { rewrite HS by (auto; lia). cbn [bind]. rewrite HP by auto. cbn [bind].
      rewrite (i_bit_andnot_ok A W8 R128) by (auto using vec_perm_mod; apply pack_reg; auto). f_equal. apply altivec_z; auto. }
    destruct (use_msa A) eqn:EM; [zleaf|]. exfalso. clear H2 HS HP HM Ha Hb Hm.
    revert HB. cbn [negb]. fam HV; rw_flags; cbn; try discriminate; try fcontra; vimp HV.
  - cbn in HA. rewrite HA. zleaf.
  - cbn in HA. rewrite HA. rewrite (konst_ok A W8 R512) by auto. cbn [bind wb rbits]. f_equal. apply testblend_z; auto.
Qed.

(** wider element types: through bytes *)
Section Half.
  Variables (s : rsz) (R q : Z).
  Hypothesis HR : R = 8 * (16 * q).
  Hypothesis Hq : 0 < q.
  Hypothesis Hs : rbits s = 2 * R.
  Lemma wokR : wok 8 R = true.
  Proof.
    unfold wok. rewrite !andb_true_iff, !Z.ltb_lt, Z.eqb_eq. repeat split; try lia.
    rewrite HR, Z.mul_comm. apply Z.mod_mul. lia.
  Qed.
  Lemma R8 : R / 8 = 16 * q. Proof. rewrite HR, Z.mul_comm. apply Z.div_mul. lia. Qed.
  Lemma S8 : rbits s / 8 = 32 * q.
  Proof. rewrite Hs, HR. replace (2 * (8 * (16 * q))) with (32 * q * 8) by ring. apply Z.div_mul. lia. Qed.
  Lemma lane_half i g x : 0 <= g -> 0 <= i < 16 * q -> lane 8 i (lane R g x) = lane 8 (g * (16 * q) + i) x.
  Proof. intros. rewrite HR. rewrite (lane_lane 8 (16 * q)) by lia. reflexivity. Qed.
  Lemma mokz_half lim m g : 0 <= g < 2 -> mokz (rbits s) lim m -> mokz R lim (lane R g m).
  Proof.
    intros Hg HM i Hi. rewrite R8 in Hi. cbv zeta. rewrite lane_half by lia. apply HM. rewrite S8. nia.
  Qed.
  Lemma mok_half lim m g : 0 <= g < 2 -> mok (rbits s) lim m -> mok R lim (lane R g m).
  Proof.
    intros Hg HM i Hi. rewrite R8 in Hi. rewrite lane_half by lia. apply HM. rewrite S8. nia.
  Qed.
  Lemma zb_half a b m g : 0 <= g < 2 -> mokz (rbits s) 32 m ->
    zb R (lane R g a) (lane R g b) (lane R g m) = lane R g (zb (rbits s) a b m).
  Proof.
    intros Hg HM. pose proof wokR as HW. symmetry. apply (reg_lanes 8 R); auto.
    - unfold reg. apply lane_range. lia.
    - apply pack_reg; auto.
    - rewrite R8. intros i Hi. rewrite lane_half by lia. unfold zb.
      assert (0 <= g * (16 * q) + i < rbits s / 8) by (rewrite S8; nia).
      specialize (HM _ H). cbv zeta in HM. pose proof (lane_range 8 (g * (16 * q) + i) m ltac:(lia)) as HC.
      rewrite !lane_pack by (auto using wok8; rewrite ?R8; lia).
      rewrite !wrap_zbyte. rewrite lane_half by lia. revert HM HC.
      generalize (lane 8 (g * (16 * q) + i) m). intros c HM HC. unfold zbyte.
      assert (HD : (g * (16 * q) + i) / 16 = g * q + i / 16).
      { replace (g * (16 * q) + i) with (i + g * q * 16) by ring. rewrite Z.div_add by lia. lia. }
      assert (Hi16 : 0 <= i / 16 < q) by (split; [apply Z.div_pos; lia|apply Z.div_lt_upper_bound; lia]).
      rewrite HD. destruct (Z.leb_spec 128 c); auto.
      destruct (Z.ltb_spec c 16); rewrite lane_half by lia; f_equal; ring.
  Qed.
  Lemma combine_zb a b m : mokz (rbits s) 32 m ->
    pack R (rbits s) (fun i => if i =? 0 then zb R (lane R 0 a) (lane R 0 b) (lane R 0 m) else zb R (lane R 1 a) (lane R 1 b) (lane R 1 m))
    = zb (rbits s) a b m.
  Proof.
    intros HM.
    assert (wok R (rbits s) = true) as HW.
    { unfold wok. rewrite !andb_true_iff, !Z.ltb_lt, Z.eqb_eq. repeat split; try lia. rewrite Hs. apply Z.mod_mul. lia. }
    assert (rbits s / R = 2) as E2 by (rewrite Hs; apply Z.div_mul; lia).
    symmetry. apply (reg_lanes R (rbits s)); auto.
    - unfold zb. apply pack_reg, wok8.
    - rewrite E2. intros i Hi. rewrite lane_pack by (auto; lia).
      assert (i = 0 \/ i = 1) as [-> | ->] by lia; cbn [Z.eqb]; rewrite zb_half by (auto; lia);
      rewrite wrap_lane; reflexivity.
  Qed.
End Half.
Lemma avail_half A s : valid_arch A = true -> (exists w, avail_int A w s = true \/ avail_flt A s = true) ->
  avail_int A 8 s = false -> match s with R128 => False | R256 => True | R512 => avail_int A 8 R256 = true end.
Proof.
  intros HV [w HA] H8. destruct s; cbn in *; auto; try discriminate.
  destruct (use_avx2 A) eqn:E2; auto. exfalso.
  assert (use_avx512f A = true \/ use_avx512bw A = true) as [E|E] by (destruct (w <=? 16), (use_avx512f A), (use_avx512bw A); destruct HA; auto; discriminate).
  all: clear HA; vimp HV.
Qed.
(** the two kinds of masks *)
Definition mk_ok (z : bool) R lim m := if z then mokz R lim m else mok R lim m.
Lemma mk_ok_z z R lim m : mk_ok z R lim m -> mokz R lim m.
Proof. destruct z; cbn; auto. Qed.
Lemma mk_half s R q z lim m g : R = 8 * (16 * q) -> 0 < q -> rbits s = 2 * R -> 0 <= g < 2 -> mk_ok z (rbits s) lim m -> mk_ok z R lim (lane R g m).
Proof. destruct z; intros; [eapply mokz_half|eapply mok_half]; eauto. Qed.
Lemma as3_ok A s f z lim (a b m : Z) : valid_arch A = true -> (exists w, avail_int A w s = true \/ avail_flt A s = true) ->
  (forall s' a b m, avail_int A 8 s' = true -> reg (rbits s') a -> reg (rbits s') b -> reg (rbits s') m -> mk_ok z (rbits s') lim m ->
     f s' a b m = Ok (zb (rbits s') a b m)) -> lim <= 32 ->
  reg (rbits s) a -> reg (rbits s) b -> reg (rbits s) m -> mk_ok z (rbits s) lim m ->
  as_u8_3 A s f a b m = Ok (zb (rbits s) a b m).
Proof.
  intros HV HA Hf HL Ha Hb Hm HM. unfold as_u8_3. destruct (avail_int A 8 s) eqn:E8; [apply Hf; auto|].
  pose proof (avail_half A s HV HA E8) as HH.
  assert (HM32 : mokz (rbits s) 32 m) by (intros i Hi; pose proof (mk_ok_z _ _ _ _ HM i Hi) as HM'; cbv zeta in *; lia).
  destruct s; [tauto| |];
  rewrite !Hf by (auto; try reflexivity; try (unfold reg; apply lane_range; cbn; lia);
    first [apply (mk_half R256 128 1) | apply (mk_half R512 256 2)]; auto; try reflexivity; lia); cbn [bind]; f_equal.
  - apply (combine_zb R256 128 1); auto; lia.
  - apply (combine_zb R512 256 2); auto; lia.
Qed.
Lemma as2_ok A s f z lim (a m : Z) : valid_arch A = true -> (exists w, avail_int A w s = true \/ avail_flt A s = true) ->
  (forall s' a m, avail_int A 8 s' = true -> reg (rbits s') a -> reg (rbits s') m -> mk_ok z (rbits s') lim m ->
     f s' a m = Ok (zb (rbits s') a a m)) -> lim <= 32 ->
  reg (rbits s) a -> reg (rbits s) m -> mk_ok z (rbits s) lim m ->
  as_u8_2 A s f a m = Ok (zb (rbits s) a a m).
Proof.
  intros HV HA Hf HL Ha Hm HM. unfold as_u8_2. destruct (avail_int A 8 s) eqn:E8; [apply Hf; auto|].
  pose proof (avail_half A s HV HA E8) as HH.
  assert (HM32 : mokz (rbits s) 32 m) by (intros i Hi; pose proof (mk_ok_z _ _ _ _ HM i Hi) as HM'; cbv zeta in *; lia).
  destruct s; [tauto| |];
  rewrite !Hf by (auto; try reflexivity; try (unfold reg; apply lane_range; cbn; lia);
    first [apply (mk_half R256 128 1) | apply (mk_half R512 256 2)]; auto; try reflexivity; lia); cbn [bind]; f_equal.
  - apply (combine_zb R256 128 1); auto; lia.
  - apply (combine_zb R512 256 2); auto; lia.
Qed.
