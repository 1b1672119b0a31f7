From Verif Require Export Model.MakeConst.

(** sub-lanes of a repeated or packed wider lane *)
Lemma lane_pack_sub w k R f i : 0 < w -> 0 < k -> wok (w * k) R = true -> 0 <= i < R / w ->
  lane w i (pack (w * k) R f) = lane w (i mod k) (f (i / k)).
Proof.
  intros Hw Hk H Hi. destruct (wok_spec _ _ H) as (_ & HR & E & _).
  assert (R / w = k * (R / (w * k))) as EL.
  { rewrite E at 1. rewrite <- Z.mul_assoc, Z.mul_comm, Z.div_mul by lia. reflexivity. }
  assert (0 <= i / k < R / (w * k)).
  { split; [apply Z.div_pos; lia|]. apply Z.div_lt_upper_bound; lia. }
  pose proof (Z.mod_pos_bound i k Hk).
  rewrite (lane_sub w k) by lia. rewrite lane_pack by auto.
  apply (bits_ext w); try lia; try (apply lane_range; lia).
  intros b Hb. rewrite !testbit_lane by lia. destruct (b <? w); [cbn [andb]|reflexivity].
  rewrite testbit_wrap by nia.
  destruct (Z.ltb_spec (w * (i mod k) + b) (w * k)); [reflexivity|nia].
Qed.
Lemma lane_wrap w k x i : 0 < w -> 0 <= i < k -> lane w i (wrap (w * k) x) = lane w i x.
Proof.
  intros. apply (bits_ext w); try lia; try (apply lane_range; lia).
  intros b Hb. rewrite !testbit_lane by lia. destruct (b <? w); [cbn [andb]|reflexivity].
  rewrite testbit_wrap by nia.
  destruct (Z.ltb_spec (w * i + b) (w * k)); [reflexivity|nia].
Qed.
Lemma lane_shl w i j x : 0 < w -> 0 <= i -> 0 <= j -> 0 <= x < 2 ^ w ->
  lane w i (Z.shiftl x (w * j)) = if i =? j then x else 0.
Proof.
  intros Hw Hi Hj Hx.
  apply (bits_ext w); try lia; try (apply lane_range; lia).
  { destruct (i =? j); lia. }
  intros b Hb. rewrite testbit_lane by lia. destruct (Z.ltb_spec b w); [cbn [andb]|lia].
  rewrite Z.shiftl_spec by nia.
  destruct (Z.eqb_spec i j) as [->|Hn].
  - f_equal; lia.
  - rewrite Z.bits_0. destruct (Z.ltb_spec i j).
    + apply Z.testbit_neg_r. nia.
    + apply (testbit_high w); nia.
Qed.
Lemma lane_small w i x : 0 < w -> 0 <= i -> 0 <= x < 2 ^ w -> lane w i x = if i =? 0 then x else 0.
Proof.
  intros. rewrite <- (lane_shl w i 0 x) by lia. rewrite Z.mul_0_r, Z.shiftl_0_r. reflexivity.
Qed.
Lemma lane_splat_sub w k R x i : 0 < w -> 0 < k -> wok (w * k) R = true -> 0 <= i < R / w ->
  lane w i (splat (w * k) R (wrap (w * k) x)) = lane w (i mod k) x.
Proof.
  intros. unfold splat. rewrite lane_pack_sub, lane_wrap by (try apply Z.mod_pos_bound; auto). reflexivity.
Qed.
Lemma land_255 x : Z.land x 255 = wrap 8 x.
Proof. change 255 with (Z.ones 8). rewrite Z.land_ones by lia. reflexivity. Qed.
Lemma land_65535 x : Z.land x 65535 = wrap 16 x.
Proof. change 65535 with (Z.ones 16). rewrite Z.land_ones by lia. reflexivity. Qed.

Lemma cval_mod l k k' : k mod Z.of_nat (length l) = k' mod Z.of_nat (length l) ->
  cval_at l k = cval_at l k'.
Proof. unfold cval_at. intros ->. reflexivity. Qed.

Lemma mod_mod_mul i k n : 0 < k -> 0 < n -> (i mod (n * k)) mod k = i mod k.
Proof. intros. rewrite (Z.mul_comm n k), Z.rem_mul_r, Z.mul_comm by lia.
  rewrite Z.mod_add by lia. apply Z.mod_mod; lia. Qed.

Ltac case_small i :=
  match goal with H : 0 <= i < ?n |- _ =>
    let rec go k := (destruct (Z.eq_dec i k) as [->|]; [ | first [lia | let k' := eval compute in (k+1) in go k']]) in go 0
  end.

Lemma lane8_or4 a b c d j : 0 <= j < 4 ->
  lane 8 j (Z.lor (Z.lor (Z.lor (wrap 8 a) (Z.shiftl (wrap 8 b) 8)) (Z.shiftl (wrap 8 c) 16))
     (Z.shiftl (wrap 8 d) 24)) =
  wrap 8 (if j =? 0 then a else if j =? 1 then b else if j =? 2 then c else d).
Proof.
  intros. change (Z.shiftl (wrap 8 b) 8) with (Z.shiftl (wrap 8 b) (8 * 1)).
  change (Z.shiftl (wrap 8 c) 16) with (Z.shiftl (wrap 8 c) (8 * 2)).
  change (Z.shiftl (wrap 8 d) 24) with (Z.shiftl (wrap 8 d) (8 * 3)).
  rewrite !lane_lor, !lane_shl, lane_small by (try apply wrap_range; lia).
  case_small j; cbn [Z.eqb Pos.eqb]; rewrite ?Z.lor_0_l, ?Z.lor_0_r; reflexivity.
Qed.
Lemma lane8_or2 a b j : 0 <= j < 2 ->
  lane 8 j (Z.lor (wrap 8 a) (Z.shiftl (wrap 8 b) 8)) = wrap 8 (if j =? 0 then a else b).
Proof.
  intros. change (Z.shiftl (wrap 8 b) 8) with (Z.shiftl (wrap 8 b) (8 * 1)).
  rewrite !lane_lor, !lane_shl, lane_small by (try apply wrap_range; lia).
  case_small j; cbn [Z.eqb Pos.eqb]; rewrite ?Z.lor_0_l, ?Z.lor_0_r; reflexivity.
Qed.
Lemma lane16_or2 a b j : 0 <= j < 2 ->
  lane 16 j (Z.lor (wrap 16 a) (Z.shiftl (wrap 16 b) 16)) = wrap 16 (if j =? 0 then a else b).
Proof.
  intros. change (Z.shiftl (wrap 16 b) 16) with (Z.shiftl (wrap 16 b) (16 * 1)).
  rewrite !lane_lor, !lane_shl, lane_small by (try apply wrap_range; lia).
  case_small j; cbn [Z.eqb Pos.eqb]; rewrite ?Z.lor_0_l, ?Z.lor_0_r; reflexivity.
Qed.

Lemma pack_half w (f : Z -> Z) : wok w 64 = true -> wok w 128 = true ->
  (forall i, 0 <= i < 64 / w -> f (i + 64 / w) = f i) ->
  vcombine (vld1 w f) (vld1 w f) = pack w 128 f.
Proof.
  intros H H2 Hf. unfold vcombine, vld1.
  destruct (wok_spec _ _ H) as (Hw & _ & E & _).
  assert (E2 : 128 / w = 2 * (64 / w)).
  { symmetry. apply Z.div_unique_exact; [lia|]. set (q := 64 / w) in *. clearbody q. nia. }
  assert (0 < 64 / w). { set (q := 64 / w) in *. clearbody q. nia. }
  apply (reg_lanes w 128); auto.
  intros i Hi. rewrite lane_pack by auto.
  assert (64 = w * (64 / w)) as E64 by exact E.
  rewrite E64 at 1. rewrite lane_pack_sub; try lia; [|rewrite <- E; reflexivity].
  assert (Hlt : i / (64 / w) = 0 \/ i / (64 / w) = 1).
  { assert (0 <= i / (64 / w) < 2); [|lia].
    split; [apply Z.div_pos; lia|apply Z.div_lt_upper_bound; lia]. }
  assert (forall b : bool, (if b then pack w 64 f else pack w 64 f) = pack w 64 f) as -> by (destruct b; reflexivity).
  pose proof (Z.mod_pos_bound i (64 / w) ltac:(lia)).
  pose proof (Z.div_mod i (64 / w) ltac:(lia)) as Ei.
  rewrite lane_pack by auto. f_equal.
  destruct Hlt as [Hq|Hq]; rewrite Hq in Ei.
  - f_equal. lia.
  - rewrite <- Hf by lia. f_equal. lia.
Qed.

Theorem i_make_const_ok A w s l off : valid_arch A = true -> avail_int A (wb w) s = true ->
  (length l > 0)%nat ->
  i_make_const A w s l off = Ok (pack (wb w) (rbits s) (fun k => cval_at l (off + k))).
Proof.
  intros HV HA Hl.
  assert (Hgen : forall f : Z -> Z,
    (if use_null A then Ok (null_make_vec (wb w) 128 f)
    else if use_sse2 A then Ok (mm_set (wb w) 128 f)
    else if use_neon A then Ok (vld1q (wb w) f)
    else match w with
    | W64 => if use_vsx207 A then Ok (vec_lit 64 f)
             else if use_msa A then Ok (msa_lit 64 f)
             else if use_null A || use_altivec A then Ok (null_make_vec 64 128 f) else UB
    | _ => if use_altivec A then Ok (vec_lit (wb w) f)
           else if use_msa A then Ok (msa_lit (wb w) f) else UB
    end) = Ok (pack (wb w) 128 f)).
  { intros f. destruct (use_null A) eqn:E0; [reflexivity|]. destruct (use_sse2 A) eqn:E1; [reflexivity|].
    destruct (use_neon A) eqn:E2; [reflexivity|].
    destruct (use_msa A) eqn:E4, (use_altivec A) eqn:E3, w, (use_vsx207 A); try reflexivity; vimp HV. }
  unfold i_make_const. destruct s; cbn [rbits] in *.
  - rewrite Hgen. destruct (use_neon A) eqn:EN; [|reflexivity].
    assert (forall k, (Z.of_nat (length l) = k)%Z -> 0 < k ->
       (forall x y, x mod k = y mod k -> cval_at l (off + x) = cval_at l (off + y))) as HC.
    { intros k Ek Hk x y Exy. apply cval_mod. rewrite Ek.
      rewrite (Z.add_mod off x), (Z.add_mod off y), Exy by lia. reflexivity. }
    set (f := fun k => cval_at l (off + k)) in *.
    destruct w; cbn [wb] in *;
    (destruct l as [|x0 [|x1 [|x2 [|x3 [|x4 [|x5 [|x6 [|x7 [|x8 l]]]]]]]]]; [cbn in Hl; lia|..]);
      cbn [length]; try reflexivity;
      cbn [length Z.of_nat Pos.of_succ_nat Pos.succ] in *;
      f_equal; unfold vdupq;
      try (apply pack_half; [reflexivity|reflexivity|]; intros i Hi; subst f; cbv beta;
           eapply HC; [reflexivity|lia|]; rewrite Z.add_mod by lia; cbn; rewrite Z.add_0_r; apply Z.mod_mod; lia).
    + apply pack_ext; [reflexivity|]. intros i Hi. rewrite wrap_wrap. f_equal. subst f; cbv beta.
      eapply HC; [reflexivity|lia|]. rewrite !Z.mod_1_r. reflexivity.
    + apply (reg_lanes 8 128); try apply pack_reg; try reflexivity. intros i Hi.
      rewrite (lane_splat_sub 8 2) by (try reflexivity; lia).
      rewrite !land_255, lane8_or2 by (apply Z.mod_pos_bound; lia).
      rewrite lane_pack by (reflexivity || lia). f_equal. subst f; cbv beta.
      destruct (Z.eqb_spec (i mod 2) 0) as [e|e]; eapply HC; try reflexivity; try lia.
      * rewrite e. reflexivity.
      * pose proof (Z.mod_pos_bound i 2 ltac:(lia)). assert (i mod 2 = 1) as -> by lia. reflexivity.
    + apply (reg_lanes 8 128); try apply pack_reg; try reflexivity. intros i Hi.
      rewrite (lane_splat_sub 8 4) by (try reflexivity; lia).
      rewrite !land_255, lane8_or4 by (apply Z.mod_pos_bound; lia).
      rewrite lane_pack by (reflexivity || lia). f_equal. subst f; cbv beta.
      pose proof (Z.mod_pos_bound i 4 ltac:(lia)).
      destruct (Z.eqb_spec (i mod 4) 0) as [e|e]; [|destruct (Z.eqb_spec (i mod 4) 1) as [e1|e1]; [|destruct (Z.eqb_spec (i mod 4) 2) as [e2|e2]]]; eapply HC; try reflexivity; try lia.
      * rewrite e; reflexivity.
      * rewrite e1; reflexivity.
      * rewrite e2; reflexivity.
      * assert (i mod 4 = 3) as -> by lia. reflexivity.
    + apply pack_ext; [reflexivity|]. intros i Hi. rewrite wrap_wrap. f_equal. subst f; cbv beta.
      eapply HC; [reflexivity|lia|]. rewrite !Z.mod_1_r. reflexivity.
    + apply (reg_lanes 16 128); try apply pack_reg; try reflexivity. intros i Hi.
      rewrite (lane_splat_sub 16 2) by (try reflexivity; lia).
      rewrite !land_65535, lane16_or2 by (apply Z.mod_pos_bound; lia).
      rewrite lane_pack by (reflexivity || lia). f_equal. subst f; cbv beta.
      destruct (Z.eqb_spec (i mod 2) 0) as [e|e]; eapply HC; try reflexivity; try lia.
      * rewrite e. reflexivity.
      * pose proof (Z.mod_pos_bound i 2 ltac:(lia)). assert (i mod 2 = 1) as -> by lia. reflexivity.
    + apply pack_ext; [reflexivity|]. intros i Hi. rewrite wrap_wrap. f_equal. subst f; cbv beta.
      eapply HC; [reflexivity|lia|]. rewrite !Z.mod_1_r. reflexivity.
    + unfold vcombine. apply pack_ext; [reflexivity|]. intros i Hi. rewrite wrap_if, wrap_wrap.
      assert (f i = f 0) as -> by (subst f; cbv beta; eapply HC; [reflexivity|lia|]; rewrite !Z.mod_1_r; reflexivity).
      destruct (i =? 0); reflexivity.
  - cbn in HA. rewrite HA. reflexivity.
  - set (f := fun k => cval_at l (off + k)) in *. destruct w; cbn in HA; rewrite HA; cbn [wb]; try reflexivity; f_equal; unfold mm_set.
    + apply (reg_lanes 8 512); try apply pack_reg; try reflexivity. intros i Hi.
      rewrite (lane_pack_sub 8 4) by (try reflexivity; lia).
      pose proof (Z.mod_pos_bound i 4 ltac:(lia)). pose proof (Z.div_mod i 4 ltac:(lia)) as Ei.
      unfold make_uint32_uint8. rewrite !land_255, lane8_or4 by lia. rewrite lane_pack by (reflexivity || lia).
      destruct (Z.eqb_spec (i mod 4) 0) as [e|e]; [|destruct (Z.eqb_spec (i mod 4) 1) as [e1|e1]; [|destruct (Z.eqb_spec (i mod 4) 2) as [e2|e2]]]; rewrite !wrap_wrap; f_equal; subst f; cbv beta; do 2 f_equal; lia.
    + apply (reg_lanes 16 512); try apply pack_reg; try reflexivity. intros i Hi.
      rewrite (lane_pack_sub 16 2) by (try reflexivity; lia).
      pose proof (Z.mod_pos_bound i 2 ltac:(lia)). pose proof (Z.div_mod i 2 ltac:(lia)) as Ei.
      unfold make_uint32_uint16. rewrite !land_65535, lane16_or2 by lia. rewrite lane_pack by (reflexivity || lia).
      destruct (Z.eqb_spec (i mod 2) 0) as [e|e]; rewrite !wrap_wrap; f_equal; subst f; cbv beta; do 2 f_equal; lia.
Qed.

Lemma konst_ok A w s c : valid_arch A = true -> avail_int A (wb w) s = true ->
  konst A w s c = Ok (splat (wb w) (rbits s) c).
Proof.
  intros. unfold konst. rewrite i_make_const_ok by (auto; cbn; lia). f_equal.
  apply pack_ext; auto. intros. unfold cval_at. cbn [length]. rewrite Z.mod_1_r. reflexivity.
Qed.
