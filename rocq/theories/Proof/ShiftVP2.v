(** Shifts by a vector of counts: the 8- and 16-bit emulations *)
From Verif Require Import Model.ShiftV Proof.CppLemmas Proof.BitwiseP Proof.MakeConstP Proof.ArithP Proof.ShiftP Proof.PopcntP Proof.BytesP Proof.MulP2 Proof.MulP5 Proof.ShiftVP.

(** ---------- arithmetic of a 16-bit lane made of two bytes ---------- *)
Lemma lor_join l h : 0 <= l < 256 -> 0 <= h -> Z.lor l (256 * h) = l + 256 * h.
Proof.
  intros Hl Hh. symmetry. rewrite Z.add_nocarry_lxor, Z.lxor_lor; try reflexivity; apply Z.bits_inj'; intros k Hk; rewrite Z.land_spec, Z.bits_0;
  change 256 with (2 ^ 8); rewrite Z.mul_comm; rewrite <- Z.shiftl_mul_pow2, Z.shiftl_spec by lia;
  (destruct (Z_lt_dec k 8); [rewrite (Z.testbit_neg_r h) by lia; apply Bool.andb_false_r|]);
  (replace l with (wrap 8 l) by (apply wrap_small; exact Hl)); rewrite testbit_wrap by lia; (destruct (Z.ltb_spec k 8); [lia|]); reflexivity.
Qed.
Lemma land_ff x : Z.land x 255 = x mod 256. Proof. change 255 with (Z.ones 8). apply Z.land_ones. lia. Qed.
Lemma ldiff_ff x : Z.ldiff x 255 = 256 * (x / 256).
Proof. change 255 with (Z.ones 8). rewrite Z.ldiff_ones_r by lia. rewrite Z.shiftl_mul_pow2, Z.shiftr_div_pow2 by lia. change (2 ^ 8) with 256. lia. Qed.
Lemma bit_ff00 k : 0 <= k -> Z.testbit 0xff00 k = (8 <=? k) && (k <? 16).
Proof.
  intros Hk. destruct (Z.ltb_spec k 16).
  - assert (C : k = 0 \/ k = 1 \/ k = 2 \/ k = 3 \/ k = 4 \/ k = 5 \/ k = 6 \/ k = 7 \/ k = 8 \/ k = 9 \/ k = 10 \/ k = 11 \/ k = 12 \/ k = 13 \/ k = 14 \/ k = 15) by lia.
    repeat (destruct C as [-> |C]; [reflexivity|]). subst k. reflexivity.
  - rewrite Bool.andb_false_r. replace 0xff00 with (wrap 16 0xff00) by reflexivity. rewrite testbit_wrap by lia. destruct (Z.ltb_spec k 16); [lia|reflexivity].
Qed.
Lemma land_ff00 x : 0 <= x < 65536 -> Z.land x 0xff00 = 256 * (x / 256).
Proof.
  intros Hx. rewrite <- ldiff_ff. apply Z.bits_inj'. intros k Hk. rewrite Z.land_spec, Z.ldiff_spec, bit_ff00 by lia. change 255 with (Z.ones 8). rewrite Z.testbit_ones_nonneg by lia.
  replace x with (wrap 16 x) by (apply wrap_small; exact Hx). rewrite testbit_wrap by lia. destruct (Z.ltb_spec k 16), (Z.leb_spec 8 k), (Z.ltb_spec k 8); try lia; cbn; rewrite ?Bool.andb_true_r, ?Bool.andb_false_r; reflexivity.
Qed.
Lemma ldiff_ff00 x : 0 <= x < 65536 -> Z.ldiff x 0xff00 = x mod 256.
Proof.
  intros Hx. rewrite <- land_ff. apply Z.bits_inj'. intros k Hk. rewrite Z.land_spec, Z.ldiff_spec, bit_ff00 by lia. change 255 with (Z.ones 8). rewrite Z.testbit_ones_nonneg by lia.
  replace x with (wrap 16 x) by (apply wrap_small; exact Hx). rewrite testbit_wrap by lia. destruct (Z.ltb_spec k 16), (Z.leb_spec 8 k), (Z.ltb_spec k 8); try lia; cbn; rewrite ?Bool.andb_true_r, ?Bool.andb_false_r; reflexivity.
Qed.
Lemma wrap16_256 x : wrap 16 (256 * x) = 256 * wrap 8 x.
Proof. unfold wrap. change (2 ^ 16) with (256 * 256). change (2 ^ 8) with 256. apply Z.mul_mod_distr_l; lia. Qed.
Lemma shl8_16 x : wrap 16 (Z.shiftl x 8) = 256 * wrap 8 x.
Proof. rewrite Z.shiftl_mul_pow2 by lia. change (2 ^ 8) with 256. rewrite Z.mul_comm. apply wrap16_256. Qed.
Lemma pow_pos8 c : 0 <= c -> 0 < 2 ^ c. Proof. intros. apply Z.pow_pos_nonneg; lia. Qed.
Lemma div8 x : 0 <= x < 65536 -> 0 <= x / 256 < 256. Proof. intros. zl. Qed.
Lemma wrap8_div x : wrap 16 x / 256 = wrap 8 (x / 256).
Proof. unfold wrap. change (2 ^ 16) with (256 * 256). change (2 ^ 8) with 256. rewrite Z.rem_mul_r by lia. rewrite Z.mul_comm, Z.div_add by lia. rewrite Z.div_small by (apply Z.mod_pos_bound; lia). reflexivity. Qed.
(** sgn of a 16-bit lane in terms of its high byte *)
Lemma sgn16_hi l h : 0 <= l < 256 -> 0 <= h < 256 -> sgn 16 (l + 256 * h) = l + 256 * sgn 8 h.
Proof.
  intros Hl Hh. unfold sgn, wrap. change (2 ^ 16) with 65536. change (2 ^ 8) with 256. change (2 ^ (16 - 1)) with 32768. change (2 ^ (8 - 1)) with 128. rewrite !Z.mod_small by lia.
  destruct (Z.ltb_spec h 128), (Z.ltb_spec (l + 256 * h) 32768); try lia.
Qed.

(** ---------- registers ---------- *)
Section P.
  Variables (s : rsz).
  Notation R := (rbits s).
  Lemma wok8 : wok 8 R = true. Proof. destruct s; reflexivity. Qed.
  Lemma wok16 : wok 16 R = true. Proof. destruct s; reflexivity. Qed.
  Lemma n8 : R / 8 = 2 * (R / 16). Proof. destruct s; reflexivity. Qed.
  Lemma halves j a : 0 <= j -> lane 16 j a = lane 8 (2 * j) a + 256 * lane 8 (2 * j + 1) a.
  Proof. intros Hj. pose proof (lane_double 8 j a) as L. change (8 * 2) with 16 in L. rewrite L by lia. change (2 ^ 8) with 256. lia. Qed.
  Lemma b8 i a : 0 <= lane 8 i a < 256. Proof. apply (lane_range 8); lia. Qed.
  Lemma b16 i a : 0 <= lane 16 i a < 65536. Proof. apply (lane_range 16); lia. Qed.
  Lemma lo8 j a : 0 <= j -> lane 16 j a mod 256 = lane 8 (2 * j) a.
  Proof. intros Hj. rewrite halves by lia. pose proof (b8 (2 * j) a). pose proof (b8 (2 * j + 1) a). zl. Qed.
  Lemma hi8 j a : 0 <= j -> lane 16 j a / 256 = lane 8 (2 * j + 1) a.
  Proof. intros Hj. rewrite halves by lia. pose proof (b8 (2 * j) a). pose proof (b8 (2 * j + 1) a). zl. Qed.
  Lemma bytes_v2 g a c r : reg R r ->
    (forall j, 0 <= j < R / 16 -> lane 16 j r = Z.lor (wrap 8 (g (lane 8 (2 * j) a) (lane 8 (2 * j) c))) (256 * wrap 8 (g (lane 8 (2 * j + 1) a) (lane 8 (2 * j + 1) c)))) ->
    r = v2 8 R g a c.
  Proof.
    intros Hr H. apply eq_v2; [apply wok8|auto|]. intros i Hi. rewrite n8 in Hi. set (j := i / 2). assert (Hj : 0 <= j < R / 16) by (unfold j; zl). specialize (H j Hj).
    set (u := wrap 8 (g (lane 8 (2 * j) a) (lane 8 (2 * j) c))) in *. set (v := wrap 8 (g (lane 8 (2 * j + 1) a) (lane 8 (2 * j + 1) c))) in *.
    assert (Hu : 0 <= u < 256) by (apply (wrap_range 8); lia). assert (Hv : 0 <= v < 256) by (apply (wrap_range 8); lia).
    rewrite lor_join in H by lia. assert (P : i = 2 * j \/ i = 2 * j + 1) by (unfold j; zl). pose proof (eq_refl u) as Eu. pose proof (eq_refl v) as Ev. unfold u at 2 in Eu. unfold v at 2 in Ev. clearbody u v. clearbody j. destruct P as [-> | ->].
    - rewrite <- Eu, <- lo8, H by lia. clear - Hu Hv. zl.
    - rewrite <- Ev, <- hi8, H by lia. clear - Hu Hv. zl.
  Qed.
End P.
