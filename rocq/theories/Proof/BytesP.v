(** permute_bytes16 and shuffle_bytes16 select the bytes the mask names. *)
From Verif Require Export Proof.MoveP Proof.MaskP Proof.ArithP Model.Bytes.

(** the selected byte: zero, byte c of the same 16 bytes of a, or byte c-16 of b *)
Definition zbyte (a b i c : Z) : Z :=
  if 128 <=? c then 0
  else if c <? 16 then lane 8 (16 * (i / 16) + c) a else lane 8 (16 * (i / 16) + (c - 16)) b.
Definition zb (R a b m : Z) : Z := pack 8 R (fun i => zbyte a b i (lane 8 i m)).
(** allowed mask bytes: below the limit, perhaps with bit 7 set *)
Definition mokz (R lim m : Z) : Prop :=
  forall i, 0 <= i < R / 8 -> let c := lane 8 i m in c < lim \/ 128 <= c < 128 + lim.
Definition mok (R lim m : Z) : Prop := forall i, 0 <= i < R / 8 -> lane 8 i m < lim.
Lemma mok_z R lim m : mok R lim m -> mokz R lim m.
Proof. intros H i Hi. left. auto. Qed.
Lemma zbyte_range a b i c : 0 <= zbyte a b i c < 2 ^ 8.
Proof. unfold zbyte. destruct (_ <=? _); [lia|]. destruct (_ <? _); apply lane_range; lia. Qed.
Lemma wrap_zbyte a b i c : wrap 8 (zbyte a b i c) = zbyte a b i c.
Proof. apply wrap_small, zbyte_range. Qed.
#[global] Hint Resolve mok_z : core.

Ltac leb_lia := repeat match goal with
  | |- context [?x <? ?y] => destruct (Z.ltb_spec x y); try lia
  | |- context [?x <=? ?y] => destruct (Z.leb_spec x y); try lia
  end.

Lemma pshufb_z R a b m : wok 8 R = true -> mokz R 16 m -> mm_shuffle_epi8 R a m = zb R a b m.
Proof.
  intros HR Hm. apply pack_ext; auto. intros i Hi. specialize (Hm i Hi). cbv zeta in *.
  pose proof (lane_range 8 i m ltac:(lia)). unfold zbyte. f_equal. leb_lia; auto.
  rewrite Z.mod_small by lia. reflexivity.
Qed.
(** vector table lookups *)
Lemma i16 i : 0 <= i < 128 / 8 -> i / 16 = 0.
Proof. change (128 / 8) with 16. intros. apply Z.div_small. lia. Qed.
Lemma lane8_combine lo hi i : 0 <= i < 16 ->
  lane 8 i (vcombine lo hi) = lane 8 (i mod 8) (if i <? 8 then lo else hi).
Proof.
  intros Hi. unfold vcombine. rewrite (lane_pack_sub 8 8 128) by (try reflexivity; change (128 / 8) with 16; lia).
  f_equal. leb_lia.
  - rewrite Z.div_small by lia. reflexivity.
  - replace (i / 8) with 1; [reflexivity|]. apply (Z.div_unique _ _ _ (i - 8)); lia.
Qed.
Lemma lane8_low i a : 0 <= i < 8 -> lane 8 i (vget_low a) = lane 8 i a.
Proof. intros. unfold vget_low. rewrite (lane_lane 8 8) by lia. f_equal. Qed.
Lemma lane8_high i a : 0 <= i < 8 -> lane 8 i (vget_high a) = lane 8 (8 + i) a.
Proof. intros. unfold vget_high. rewrite (lane_lane 8 8) by lia. f_equal. Qed.
Lemma combine_halves a : reg 128 a -> vcombine (vget_low a) (vget_high a) = a.
Proof.
  intros Ha. apply (reg_lanes 64 128); auto; [apply pack_reg; auto|]. change (128 / 64) with 2. intros i Hi.
  unfold vcombine. rewrite lane_pack by (auto; change (128 / 64) with 2; lia). unfold vget_low, vget_high.
  case_small i; cbn [Z.eqb]; apply wrap_lane.
Qed.
Lemma lane8_tab2 a b i : 0 <= i < 32 ->
  lane 8 i (vtab2 a b) = if i <? 16 then lane 8 i a else lane 8 (i - 16) b.
Proof.
  intros Hi. unfold vtab2. rewrite (lane_pack_sub 8 16 256) by (try reflexivity; change (256 / 8) with 32; lia).
  leb_lia.
  - rewrite Z.div_small, Z.mod_small by lia. reflexivity.
  - replace (i / 16) with 1 by (apply (Z.div_unique _ _ _ (i - 16)); lia).
    replace (i mod 16) with (i - 16) by (apply (Z.mod_unique _ _ 1); lia). reflexivity.
Qed.
Lemma vtbl_halves tb t m : reg 128 m -> 
  vcombine (vtbl 64 tb t (vget_low m)) (vtbl 64 tb t (vget_high m)) = vtbl 128 tb t m.
Proof.
  intros Hm. unfold vtbl at 3. apply eq_v1; auto; [apply pack_reg; auto|].
  change (128 / 8) with 16. intros i Hi. rewrite lane8_combine by auto. unfold vtbl.
  destruct (Z.ltb_spec i 8).
  - rewrite (Z.mod_small i 8) by lia.
    rewrite lane_v1 by (auto; change (64 / 8) with 8; lia). rewrite lane8_low by lia. reflexivity.
  - replace (i mod 8) with (i - 8) by (apply (Z.mod_unique _ _ 1); lia).
    rewrite lane_v1 by (auto; change (64 / 8) with 8; lia). rewrite lane8_high by lia.
    replace (8 + (i - 8)) with i by lia. reflexivity.
Qed.
Ltac zstart m Hm :=
  apply pack_ext; auto; change (128 / 8) with 16; let i := fresh "i" in let Hi := fresh "Hi" in intros i Hi;
  specialize (Hm i Hi); cbv zeta in *; pose proof (lane_range 8 i m ltac:(lia));
  unfold zbyte; rewrite (i16 i) by (change (128 / 8) with 16; lia); rewrite ?Z.mul_0_r, ?Z.add_0_l; f_equal.
Lemma vtbl1_z a b m : mokz 128 16 m -> vtbl 128 128 a m = zb 128 a b m.
Proof. intros Hm. zstart m Hm. change (128 / 8) with 16. leb_lia; auto. Qed.
Lemma vtbl2_z a b m : mokz 128 32 m -> vtbl 128 256 (vtab2 a b) m = zb 128 a b m.
Proof.
  intros Hm. zstart m Hm. change (256 / 8) with 32. leb_lia; auto.
  - rewrite lane8_tab2 by lia. leb_lia; auto.
  - rewrite lane8_tab2 by lia. leb_lia; auto.
Qed.
Lemma vec_perm_s a b m : mok 128 32 m -> vec_perm a b m = zb 128 a b m.
Proof. intros Hm. zstart m Hm. rewrite (Z.mod_small _ 32) by lia. leb_lia; auto. Qed.
Lemma bit67 c : 0 <= c < 256 -> lane 2 3 c = c / 64.
Proof.
  intros. rewrite lane_div by lia. change (2 * 3) with 6. change (2 ^ 6) with 64. change (2 ^ 2) with 4.
  apply Z.mod_small. split; [apply Z.div_pos; lia|apply Z.div_lt_upper_bound; lia].
Qed.
Lemma vshf_z a b m : mokz 128 32 m -> msa_vshf 8 m b a = zb 128 a b m.
Proof.
  intros Hm. zstart m Hm. rewrite bit67 by lia. change (128 / 8) with 16. destruct Hm as [Hm|Hm].
  - rewrite Z.div_small by lia. cbn [Z.eqb negb].
    rewrite (wrap_small 6) by (cbn; lia). rewrite (Z.mod_small _ (2 * 16)) by lia. leb_lia; auto.
  - replace (lane 8 i m / 64) with 2 by (apply (Z.div_unique _ _ _ (lane 8 i m - 128)); lia). cbn [Z.eqb negb].
    leb_lia; auto.
Qed.
Lemma perm_epi8_z a b m : mokz 128 32 m -> mm_perm_epi8 a b m = zb 128 a b m.
Proof.
  intros Hm. zstart m Hm. destruct Hm as [Hm|Hm].
  - rewrite Z.div_small, Z.mod_small by lia. leb_lia; auto.
  - replace (lane 8 i m / 32) with 4 by (apply (Z.div_unique _ _ _ (lane 8 i m - 128)); lia).
    leb_lia; auto.
Qed.
Ltac m16 k := first [apply (Z.mod_unique _ _ k); lia | symmetry; apply (Z.mod_unique _ _ k); lia].
Lemma bit7_leb z : 0 <= z < 256 -> (128 <=? z) = Z.testbit z 7.
Proof.
  intros. rewrite Z.testbit_odd, Z.shiftr_div_pow2 by lia. change (2 ^ 7) with 128.
  leb_lia.
  - replace (z / 128) with 1 by (apply (Z.div_unique _ _ _ (z - 128)); lia). reflexivity.
  - rewrite Z.div_small by lia. reflexivity.
Qed.
Lemma bit4_leb z : 0 <= z < 32 -> Z.testbit z 4 = (16 <=? z).
Proof.
  intros. rewrite Z.testbit_odd, Z.shiftr_div_pow2 by lia. change (2 ^ 4) with 16.
  leb_lia.
  - replace (z / 16) with 1 by (apply (Z.div_unique _ _ _ (z - 16)); lia). reflexivity.
  - rewrite Z.div_small by lia. reflexivity.
Qed.
Lemma wok16_8 R : wok 16 R = true -> wok 8 R = true /\ R / 8 = 2 * (R / 16).
Proof.
  intros H. destruct (wok_spec _ _ H) as (_ & HR & E & _). split.
  - unfold wok. rewrite !andb_true_iff, !Z.ltb_lt, Z.eqb_eq. repeat split; try lia.
    rewrite E. replace (16 * (R / 16)) with (2 * (R / 16) * 8) by ring. apply Z.mod_mul. lia.
  - rewrite E at 1. replace (16 * (R / 16)) with (2 * (R / 16) * 8) by ring. apply Z.div_mul. lia.
Qed.
Lemma sll3_sel R m i : wok 16 R = true -> 0 <= i < R / 8 ->
  (128 <=? lane 8 i (mm_sll 16 R m 3)) = Z.testbit (lane 8 i m) 4.
Proof.
  intros HR Hi. destruct (wok16_8 R HR) as (H8 & E8).
  rewrite bit7_leb by (apply (lane_range 8); lia).
  rewrite E8 in Hi.
  assert (0 <= i / 2 < R / 16) by (generalize dependent (R / 16); intros; split; [apply Z.div_pos; lia|apply Z.div_lt_upper_bound; lia]).
  pose proof (Z.mod_pos_bound i 2 ltac:(lia)).
  rewrite (lane_sub 8 2 i (mm_sll _ _ _ _)), (lane_sub 8 2 i m) by lia. change (8 * 2) with 16.
  unfold mm_sll. rewrite lane_v1 by auto. cbn [Z.ltb Z.compare Pos.compare Pos.compare_cont].
  rewrite !testbit_lane by lia. cbn [Z.ltb Z.compare Pos.compare Pos.compare_cont andb].
  rewrite testbit_wrap, Z.shiftl_spec by lia. rewrite testbit_lane by lia.
  destruct (Z.ltb_spec (8 * (i mod 2) + 7) 16); [|lia].
  destruct (Z.ltb_spec (8 * (i mod 2) + 7 - 3) 16); [|lia].
  destruct (Z.ltb_spec (8 * (i mod 2) + 4) 16); [|lia]. cbn [andb]. f_equal. lia.
Qed.
Lemma blendv_z R a b m : wok 16 R = true -> mokz R 32 m ->
  mm_blendv_epi8 R (mm_shuffle_epi8 R a m) (mm_shuffle_epi8 R b m) (mm_sll 16 R m 3) = zb R a b m.
Proof.
  intros HR Hm. destruct (wok16_8 R HR) as (H8 & E8). unfold mm_blendv_epi8.
  symmetry. apply eq_v3; auto; [apply pack_reg; auto|]. intros i Hi. specialize (Hm i Hi). cbv zeta in *.
  rewrite sll3_sel by auto.
  pose proof (lane_range 8 i m ltac:(lia)). unfold zb, mm_shuffle_epi8. rewrite !lane_pack by auto.
  rewrite wrap_zbyte. cbv zeta.
  unfold zbyte. destruct Hm as [Hm|Hm].
  - rewrite bit4_leb by lia. destruct (Z.leb_spec 128 (lane 8 i m)); [lia|].
    destruct (Z.leb_spec 16 (lane 8 i m)), (Z.ltb_spec (lane 8 i m) 16); try lia; rewrite !wrap_lane.
    + f_equal. f_equal. m16 1.
    + f_equal. f_equal. m16 0.
  - destruct (Z.leb_spec 128 (lane 8 i m)); [|lia]. destruct (Z.testbit _ _); reflexivity.
Qed.
Lemma testblend_z R a b m : wok 8 R = true -> mokz R 32 m ->
  mm_mask_blend 8 R (mm_test_mask 8 R m (splat 8 R 16)) (mm_shuffle_epi8 R a m) (mm_shuffle_epi8 R b m) = zb R a b m.
Proof.
  intros HR Hm. unfold mm_mask_blend. apply pack_ext; auto. intros i Hi. specialize (Hm i Hi). cbv zeta in *.
  unfold mm_test_mask. rewrite testbit_kmask by auto. rewrite lane_splat by auto.
  pose proof (lane_range 8 i m ltac:(lia)). unfold mm_shuffle_epi8. rewrite !lane_pack by auto. cbv zeta.
  change (wrap 8 16) with (2 ^ 4).
  assert (negb (Z.land (lane 8 i m) (2 ^ 4) =? 0) = Z.testbit (lane 8 i m) 4) as ->.
  { destruct (Z.testbit (lane 8 i m) 4) eqn:E.
    - apply negb_true_iff, Z.eqb_neq. intros HE. apply (f_equal (fun z => Z.testbit z 4)) in HE.
      rewrite Z.land_spec, E, Z.pow2_bits_true in HE by lia. discriminate.
    - apply negb_false_iff, Z.eqb_eq. apply Z.bits_inj'. intros k Hk. rewrite Z.land_spec, Z.pow2_bits_eqb, Z.bits_0 by lia.
      destruct (Z.eqb_spec 4 k); subst; rewrite ?E, ?andb_false_r; reflexivity. }
  unfold zbyte. destruct Hm as [Hm|Hm].
  - rewrite bit4_leb by lia. destruct (Z.leb_spec 128 (lane 8 i m)); [lia|].
    destruct (Z.leb_spec 16 (lane 8 i m)), (Z.ltb_spec (lane 8 i m) 16); try lia; rewrite !wrap_lane.
    + f_equal. f_equal. m16 1.
    + f_equal. f_equal. m16 0.
  - destruct (Z.leb_spec 128 (lane 8 i m)); [|lia]. destruct (Z.testbit _ _); reflexivity.
Qed.
Lemma ssse3_s a b m : mok 128 32 m ->
  Z.lor (mm_shuffle_epi8 128 a (v2 8 128 Z.add m (splat 8 128 0x70)))
        (mm_shuffle_epi8 128 b (v2 8 128 Z.add m (splat 8 128 0xf0))) = zb 128 a b m.
Proof.
  intros Hm. apply (reg_lanes 8 128); auto; try apply pack_reg; auto.
  { apply lor_reg'; auto; apply pack_reg; auto. }
  intros i Hi. specialize (Hm i Hi). pose proof (lane_range 8 i m ltac:(lia)).
  unfold mm_shuffle_epi8, zb. lsimp. rewrite wrap_zbyte. cbv zeta. unfold zbyte.
  rewrite i16 by auto. rewrite !Z.mul_0_r, !Z.add_0_l. change (wrap 8 112) with 112. change (wrap 8 240) with 240.
  destruct (Z.ltb_spec (lane 8 i m) 16).
  - rewrite (wrap_small 8 (lane 8 i m + 112)), (wrap_small 8 (lane 8 i m + 240)) by (change (2 ^ 8) with 256; lia).
    leb_lia. rewrite wrap_lane, wrap_0, Z.lor_0_r. f_equal. m16 7.
  - rewrite (wrap_small 8 (lane 8 i m + 112)) by (change (2 ^ 8) with 256; lia).
    assert (wrap 8 (lane 8 i m + 240) = lane 8 i m - 16) as ->.
    { unfold wrap. symmetry. apply (Z.mod_unique _ _ 1); change (2 ^ 8) with 256; lia. }
    leb_lia. rewrite wrap_lane, wrap_0, Z.lor_0_l. f_equal. apply Z.mod_small. lia.
Qed.

(** where the byte shuffles exist *)
Definition has_permute_bytes A := negb (use_sse2 A && negb (use_ssse3 A)).
Definition has_shuffle_bytes A := negb (use_sse2 A && negb (use_ssse3 A) && negb (use_xop A)).
Lemma null_pb_s a b m : mok 128 16 m ->
  pack 8 128 (fun i => lane 8 (Z.land (lane 8 i m) 0x0f) a) = zb 128 a b m.
Proof.
  intros Hm. zstart m Hm. change 15 with (Z.ones 4). rewrite Z.land_ones, Z.mod_small by (cbn; lia). leb_lia; auto.
Qed.
Lemma null_sb_s a b m : mok 128 32 m ->
  pack 8 128 (fun i => let j := Z.land (lane 8 i m) 0x0f in
        let which := lane 8 i m <? 0x10 in
        if which then lane 8 j a else lane 8 j b) = zb 128 a b m.
Proof.
  intros Hm. zstart m Hm. cbv zeta. change 15 with (Z.ones 4). rewrite Z.land_ones by lia. change (2 ^ 4) with 16.
  destruct (Z.ltb_spec (lane 8 i m) 16); destruct (Z.leb_spec 128 (lane 8 i m)); try lia.
  - rewrite Z.mod_small by lia. auto.
  - f_equal. m16 1.
Qed.
Lemma mok_weak R m : mok R 16 m -> mok R 32 m.
Proof. intros H i Hi. specialize (H i Hi). lia. Qed.
#[global] Hint Resolve mok_weak : core.

Ltac bleaf := idtac; f_equal;
  first [ rewrite combine_halves by auto; rewrite vtbl_halves by auto; solve [apply vtbl1_z; auto]
        | rewrite !combine_halves by auto; rewrite vtbl_halves by auto; solve [apply vtbl2_z; auto]
        | solve [apply null_pb_s; auto] | solve [apply null_sb_s; auto]
        | solve [apply pshufb_z; auto] | solve [apply vtbl1_z; auto]
        | solve [apply vtbl2_z; auto] | solve [apply vec_perm_s; auto] | solve [apply vshf_z; auto]
        | solve [apply perm_epi8_z; auto] | solve [apply blendv_z; auto] ].
(** a rung excluded by the hypothesis HB on the instruction set *)
Ltac bcontra HB := idtac; solve [exfalso; revert HB;
  repeat match goal with E : ?b = ?v |- _ => lazymatch v with true => idtac | false => idtac end;
     lazymatch type of b with bool => idtac end; rewrite ?E; clear E end; cbn; discriminate].
Lemma i_permute_bytes16_ok A s a m : valid_arch A = true -> avail_int A 8 s = true -> has_permute_bytes A = true ->
  reg (rbits s) a -> reg (rbits s) m -> mok (rbits s) 16 m ->
  i_permute_bytes16 A s a m = Ok (zb (rbits s) a a m).
Proof.
  intros HV HA HB Ha Hm HM. unfold i_permute_bytes16. unfold has_permute_bytes in HB.
  unfold use_neon32, use_neon64.
  destruct s; cbn [rbits] in *; ladt HV HA bleaf; bcontra HB.
Qed.

Lemma add_reg' w R a b : wok w R = true -> reg R (v2 w R Z.add a b).
Proof. intros. apply pack_reg; auto. Qed.
Lemma shuffle_epi8_reg R a m : wok 8 R = true -> reg R (mm_shuffle_epi8 R a m).
Proof. intros. apply pack_reg; auto. Qed.
#[global] Hint Resolve add_reg' shuffle_epi8_reg : core.
Lemma i_shuffle_bytes16_ok A s a b m : valid_arch A = true -> avail_int A 8 s = true -> has_shuffle_bytes A = true ->
  reg (rbits s) a -> reg (rbits s) b -> reg (rbits s) m -> mok (rbits s) 32 m ->
  i_shuffle_bytes16 A s a b m = Ok (zb (rbits s) a b m).
Proof.
  intros HV HA HB Ha Hb Hm HM. unfold i_shuffle_bytes16. unfold has_shuffle_bytes in HB.
  unfold use_neon32, use_neon64.
  destruct s; cbn [rbits] in *; ladt HV HA bleaf; try bcontra HB.
  - rewrite (konst_ok A W8 R128) by auto. cbn [bind wb rbits].
    rewrite (i_add_ok A W8 R128) by (auto; apply pack_reg; auto). cbn [bind wb rbits].
    rewrite (konst_ok A W8 R128) by auto. cbn [bind wb rbits].
    rewrite (i_add_ok A W8 R128) by (auto; apply pack_reg; auto). cbn [bind wb rbits].
    rewrite (i_bit_or_ok A W8 R128) by (auto; apply shuffle_epi8_reg; auto). f_equal. apply ssse3_s; auto.
  - rewrite (konst_ok A W8 R512) by auto. cbn [bind wb rbits]. f_equal. apply testblend_z; auto.
Qed.

(** constant masks *)
Definition mask_sel (l : list Z) (k : Z) : src :=
  let c := nth (Z.to_nat k) l 0 in
  if 128 <=? c then None else if c <? 16 then fromA c else fromB (c - 16).
Definition mask_ok (lim : Z) (l : list Z) : bool :=
  (Z.of_nat (length l) =? 16) && forallb (fun c => (0 <=? c) && (c <? lim)) l.
Lemma mask_ok_nth lim l : mask_ok lim l = true -> forall k, 0 <= k < 16 -> 0 <= nth (Z.to_nat k) l 0 < lim.
Proof.
  unfold mask_ok. rewrite andb_true_iff, Z.eqb_eq, forallb_forall. intros [HL H] k Hk.
  assert (In (nth (Z.to_nat k) l 0) l) as HI by (apply nth_In; lia).
  specialize (H _ HI). rewrite andb_true_iff, Z.leb_le, Z.ltb_lt in H. exact H.
Qed.
Lemma lane_const R l i : wok 8 R = true -> 0 <= i < R / 8 -> mask_ok 32 l = true ->
  lane 8 i (pack 8 R (fun k => cval_at l (0 + k))) = nth (Z.to_nat (i mod 16)) l 0.
Proof.
  intros HR Hi Hl. rewrite lane_pack by auto. unfold cval_at.
  pose proof Hl as Hl'. unfold mask_ok in Hl'. rewrite andb_true_iff, Z.eqb_eq in Hl'. destruct Hl' as [HL _].
  rewrite HL, Z.add_0_l. apply wrap_small.
  pose proof (mask_ok_nth 32 l Hl (i mod 16) (Z.mod_pos_bound i 16 ltac:(lia))). change (2 ^ 8) with 256. lia.
Qed.
Lemma mask_ok_weak l : mask_ok 16 l = true -> mask_ok 32 l = true.
Proof.
  unfold mask_ok. rewrite !andb_true_iff, !forallb_forall. intros [H1 H2]; split; auto.
  intros x Hx. specialize (H2 x Hx). rewrite andb_true_iff, Z.leb_le, Z.ltb_lt in *. lia.
Qed.
Lemma mok_const R lim l : wok 8 R = true -> lim <= 32 -> mask_ok lim l = true ->
  mok R lim (pack 8 R (fun k => cval_at l (0 + k))).
Proof.
  intros HR HLim Hl i Hi.
  assert (mask_ok 32 l = true) as H32.
  { unfold mask_ok in *. rewrite !andb_true_iff, !forallb_forall in *. destruct Hl as [H1 H2]; split; auto.
    intros x Hx. specialize (H2 x Hx). rewrite andb_true_iff, Z.leb_le, Z.ltb_lt in *. lia. }
  rewrite lane_const by auto. pose proof (mask_ok_nth lim l Hl (i mod 16) (Z.mod_pos_bound i 16 ltac:(lia))). lia.
Qed.
Lemma gok16_wok R : gok 8 R 16 = true -> wok 8 R = true.
Proof. intros H. apply (gok_spec _ _ _ H). Qed.
Lemma zb_const R a b l : gok 8 R 16 = true -> mask_ok 32 l = true ->
  zb R a b (pack 8 R (fun k => cval_at l (0 + k))) = lsh 8 R 16 (mask_sel l) [a; b].
Proof.
  intros HG Hl. destruct (gok_spec _ _ _ HG) as (HR & _ & _ & _ & E & E2).
  apply eq_lsh; auto; [apply pack_reg; auto|]. intros g k Hg Hk. unfold zb.
  assert (0 <= 16 * g + k < R / 8) by lia.
  rewrite lane_pack by auto. rewrite wrap_zbyte, lane_const by auto.
  rewrite grp_mod by lia. unfold zbyte. rewrite grp_div by lia. unfold mask_sel.
  pose proof (mask_ok_nth 32 l Hl k Hk).
  destruct (128 <=? _); [reflexivity|]. destruct (_ <? 16); reflexivity.
Qed.
Lemma gok16 s : gok 8 (rbits s) 16 = true.
Proof. destruct s; reflexivity. Qed.
Lemma perm_mask_ok A s l a : valid_arch A = true -> avail_int A 8 s = true -> has_permute_bytes A = true ->
  reg (rbits s) a -> mask_ok 16 l = true ->
  (let* m := i_make_const A W8 s l 0 in i_permute_bytes16 A s a m) = Ok (lsh 8 (rbits s) 16 (mask_sel l) [a; a]).
Proof.
  intros HV HA HB Ha Hl. rewrite i_make_const_ok; auto.
  - cbn [bind wb]. rewrite i_permute_bytes16_ok; auto.
    + rewrite zb_const by auto using gok16, mask_ok_weak. reflexivity.
    + apply pack_reg, gok16_wok, gok16.
    + apply mok_const; auto; [apply gok16_wok, gok16|lia].
  - unfold mask_ok in Hl. destruct l; [discriminate|]. cbn [length]. lia.
Qed.
Lemma shuf_mask_ok A s l a b : valid_arch A = true -> avail_int A 8 s = true -> has_shuffle_bytes A = true ->
  reg (rbits s) a -> reg (rbits s) b -> mask_ok 32 l = true ->
  (let* m := i_make_const A W8 s l 0 in i_shuffle_bytes16 A s a b m) = Ok (lsh 8 (rbits s) 16 (mask_sel l) [a; b]).
Proof.
  intros HV HA HB Ha Hb Hl. rewrite i_make_const_ok; auto.
  - cbn [bind wb]. rewrite i_shuffle_bytes16_ok; auto.
    + rewrite zb_const by auto using gok16. reflexivity.
    + apply pack_reg, gok16_wok, gok16.
    + apply mok_const; auto; [apply gok16_wok, gok16|lia].
  - unfold mask_ok in Hl. destruct l; [discriminate|]. cbn [length]. lia.
Qed.
