(** extract on wide registers, insert. *)
From Verif Require Export Proof.ExtractP.

Lemma p16 fp s : fp mod (rbits s / 8) = 0 -> fp mod 16 = 0.
Proof.
  intros H. assert (exists k, rbits s / 8 = k * 16) as (k & E) by (destruct s; [exists 1|exists 2|exists 4]; reflexivity).
  assert (k <> 0) by (destruct s; cbn in E; lia). rewrite E in H. apply Z.mod_divide in H; [|lia]. destruct H as [z ->].
  replace (z * (k * 16)) with (z * k * 16) by ring. apply Z.mod_mul. lia.
Qed.

Section W.
  Variables (A : arch) (fp : Z).
  Hypothesis HV : valid_arch A = true.
  Variable s : rsz.
  Notation R := (rbits s).
  Hypothesis Hp : fp mod (R / 8) = 0.

  Lemma sub128 e id a : 0 <= id < R / eb e ->
    0 <= id mod (128 / eb e) < 128 / eb e /\ 0 <= id / (128 / eb e) < R / 128 /\
    lane (eb e) (id mod (128 / eb e)) (lane 128 (id / (128 / eb e)) a) = lane (eb e) id a.
  Proof.
    intros Hid. set (n := 128 / eb e).
    assert (0 < n /\ 128 = eb e * n /\ R / eb e = n * (R / 128)) as (Hn & E & E2) by (destruct e, s; repeat split; reflexivity).
    pose proof (Z.mod_pos_bound id n Hn) as M. pose proof (Z.div_mod id n ltac:(lia)) as D.
    assert (0 < eb e) by (destruct e; reflexivity).
    assert (0 <= id / n < R / 128) as Q by (split; [apply Z.div_pos; lia|apply Z.div_lt_upper_bound; lia]).
    split; [exact M|]. split; [exact Q|].
    rewrite E at 1. rewrite (lane_lane (eb e) n) by lia. f_equal. lia.
  Qed.
  Lemma extract_bits_ok e id a : avail_et A e s = true -> reg R a -> 0 <= id < R / eb e ->
    extract_bits A fp e s id a = Ok (lane (eb e) id a).
  Proof.
    intros HA Ha Hid. destruct (sub128 e id a Hid) as (H1 & H2 & H3).
    assert (E : s <> R128 -> if_wide A e s (extract128 A fp e (id mod (128 / eb e)) (mm_extract128 (id / (128 / eb e)) a)) = Ok (lane (eb e) id a)).
    { intros _. unfold if_wide. rewrite HA. rewrite extract128_ok; auto using (p16 fp s Hp). unfold mm_extract128. rewrite H3. reflexivity. }
    assert (E2 : if_wide A e s (Ok (lane (eb e) (id mod (128 / eb e)) (mm_extract128 (id / (128 / eb e)) a))) = Ok (lane (eb e) id a)).
    { unfold if_wide, mm_extract128. rewrite HA, H3. reflexivity. }
    unfold extract_bits. destruct s eqn:Es.
    - apply extract128_ok; auto.
    - destruct e; try (apply E2); try (apply E; discriminate).
      destruct (use_avx2 A && (id =? 3) && (rbits R256 =? 256)) eqn:EC; [|apply E; discriminate].
      apply andb_true_iff in EC. destruct EC as [EC _]. apply andb_true_iff in EC. destruct EC as [_ EC]. apply Z.eqb_eq in EC. subst id.
      unfold if_wide. rewrite HA. apply f_equal. unfold mm_permute4x64. change 0 with (4 * 0 + 0) at 1. rewrite lane_lsh by (try reflexivity; cbn; lia).
      reflexivity.
    - destruct e; try (apply E2); try (apply E; discriminate).
      replace (use_avx2 A && (id =? 3) && (rbits R512 =? 256)) with false by (symmetry; apply andb_false_r).
      apply E; discriminate.
  Qed.
  (** finding: the int64 extract of 32-bit MSA *)
  Definition extract_def (sg : bool) (e : et) : Prop := sg = true -> e = I64 -> use_msa A = true -> use_64 A = true.
  Lemma i_extract_ok sg e id a : avail_et A e s = true -> reg R a -> 0 <= id < R / eb e -> extract_def sg e ->
    i_extract A fp sg e s id a = Ok (value sg (eb e) (lane (eb e) id a)).
  Proof.
    intros HA Ha Hid HD. pose proof (extract_bits_ok e id a HA Ha Hid) as E. unfold i_extract, value. destruct sg; [|exact E].
    rewrite E. cbn [bind].
    unfold extract_def in HD. destruct e, s; try (destruct (use_msa A)); try reflexivity.
    rewrite HD by reflexivity. reflexivity.
  Qed.
End W.

Section I.
  Variables (A : arch) (fp : Z).
  Hypothesis HV : valid_arch A = true.
  Hypothesis (Hp : fp mod 16 = 0).
  Lemma lane_hi0 w x : 0 <= x < 2 ^ w -> 0 <= w -> lane w 1 x = 0.
  Proof.
    intros Hx Hw. apply (bits_ext w); [lia|apply lane_range; lia|pose proof (pow2_pos w); lia|]. intros k Hk. rewrite testbit_lane, Z.bits_0 by lia.
    rewrite <- (wrap_small w x) by lia. rewrite testbit_wrap by lia. destruct (Z.ltb_spec (w * 1 + k) w); [lia|]. apply andb_false_r.
  Qed.
  Lemma land255 x i : Z.land (lane 8 i x) 255 = lane 8 i x.
  Proof. change 255 with (Z.ones 8). rewrite Z.land_ones by lia. apply wrap_lane. Qed.
  Lemma ins8_lo id x a : 0 <= id < 16 -> 0 <= x < 2 ^ 8 -> id mod 2 = 0 ->
    ins 16 128 (id / 2) (Z.lor (Z.land (lane 16 (id / 2) a) 0xff00) x) a = ins 8 128 id x a.
  Proof.
    intros Hid Hx M. assert (0 <= id / 2) by (apply Z.div_pos; lia). apply (ins_part 8 2 128); auto; try lia. intros j Hj. rewrite M.
    rewrite lane_lor, lane_land by lia. rewrite (lane_lane 8 2) by lia.
    assert (j = 0 \/ j = 1) as [-> | ->] by lia; cbn [Z.eqb Pos.eqb].
    - change (lane 8 0 0xff00) with 0. rewrite Z.land_0_r, Z.lor_0_l. apply lane_0. lia.
    - change (lane 8 1 0xff00) with 255. rewrite land255, lane_hi0, Z.lor_0_r by lia. f_equal. lia.
  Qed.
  Lemma ins8_hi id x a : 0 <= id < 16 -> 0 <= x < 2 ^ 8 -> id mod 2 = 1 ->
    ins 16 128 (id / 2) (Z.lor (Z.land (lane 16 (id / 2) a) 0x00ff) (wrap 16 (Z.shiftl x 8))) a = ins 8 128 id x a.
  Proof.
    intros Hid Hx M. assert (0 <= id / 2) by (apply Z.div_pos; lia). apply (ins_part 8 2 128); auto; try lia. intros j Hj. rewrite M.
    rewrite lane_lor, lane_land by lia. rewrite (lane_lane 8 2) by lia.
    rewrite (wrap_small 16) by (rewrite Z.shiftl_mul_pow2 by lia; change (2 ^ 16) with (2 ^ 8 * 2 ^ 8); nia).
    assert (j = 0 \/ j = 1) as [-> | ->] by lia; cbn [Z.eqb Pos.eqb].
    - change (lane 8 0 0x00ff) with 255. rewrite land255. replace (lane 8 0 (Z.shiftl x 8)) with 0.
      + rewrite Z.lor_0_r. f_equal. lia.
      + rewrite lane_0 by lia. unfold wrap. rewrite Z.shiftl_mul_pow2 by lia. symmetry. apply Z.mod_mul. lia.
    - change (lane 8 1 0x00ff) with 0. rewrite Z.land_0_r, Z.lor_0_l.
      apply (bits_ext 8); [lia|apply lane_range; lia|apply wrap_range; lia|]. intros k Hk. rewrite testbit_lane, testbit_wrap, Z.shiftl_spec by lia.
      f_equal. f_equal. lia.
  Qed.
  Lemma ins16_32 id x a : 0 <= id < 4 ->
    ins 16 128 (id * 2 + 1) (wrap 16 (Z.shiftr x 16)) (ins 16 128 (id * 2) (Z.land x 0xffff) a) = ins 32 128 id x a.
  Proof.
    intros Hid. change 0xffff with (Z.ones 16). rewrite Z.land_ones by lia. apply (ins_double 16 128); auto; lia.
  Qed.
  Variables (id x a : Z).
  Hypothesis Ha : reg 128 a.
  (** 64-bit lanes 0 of vx and 1 of a, or 0 of a and 0 of vx *)
  Lemma ins64_pd : 0 <= id < 2 -> 0 <= x < 2 ^ 64 ->
    (if id =? 0 then Ok (mm_shuffle_pd 128 2 (mm_set1 64 128 x) a) else Ok (mm_shuffle_pd 128 2 a (mm_set1 64 128 x))) = Ok (ins 64 128 id x a).
  Proof.
    intros Hid Hx. transitivity (Ok (if id =? 0 then mm_shuffle_pd 128 2 (mm_set1 64 128 x) a else mm_shuffle_pd 128 2 a (mm_set1 64 128 x))).
    { destruct (id =? 0); reflexivity. }
    apply f_equal. apply ins_eq; [reflexivity|destruct (id =? 0); apply pack_reg; reflexivity|]. intros j Hj. change (128 / 64) with 2 in Hj.
    assert (HS : forall i, 0 <= i < 2 -> lane 64 i (mm_set1 64 128 x) = wrap 64 x) by (intros i Hi; apply lane_splat; [reflexivity|exact Hi]).
    assert (id = 0 \/ id = 1) as [-> | ->] by lia; assert (j = 0 \/ j = 1) as [-> | ->] by lia; cbn [Z.eqb Pos.eqb]; unfold mm_shuffle_pd;
      rewrite lane_pack by (first [reflexivity | cbn; lia]); cbn [Z.even]; cbn -[lane wrap mm_set1]; rewrite ?HS by lia; rewrite ?wrap_wrap, ?wrap_lane; try reflexivity.
  Qed.
  Lemma ins64_sh vx : 0 <= id < 2 -> reg 128 vx -> lane 64 0 vx = wrap 64 x ->
    (if id =? 0 then i_shuffle1 A I64 R128 0 1 vx a else i_shuffle1 A I64 R128 0 0 a vx) = Ok (ins 64 128 id x a).
  Proof.
    intros Hid Hv HL. assert (HA : avail_et A I64 R128 = true) by reflexivity.
    rewrite !(sh1_ok A R128 HV I64) by (first [lia | assumption | left; reflexivity]).
    transitivity (Ok (if id =? 0 then lsh 64 128 2 (p_shuffle1 0 1) [vx; a] else lsh 64 128 2 (p_shuffle1 0 0) [a; vx])).
    { destruct (id =? 0); reflexivity. }
    apply f_equal. apply ins_eq; [reflexivity|destruct (id =? 0); apply lsh_reg; reflexivity|]. intros j Hj. change (128 / 64) with 2 in Hj.
    assert (HS : forall f u v i, 0 <= i < 2 -> lane 64 i (lsh 64 128 2 f [u; v]) = match f i with Some (m, k) => lane 64 k (nth m [u; v] 0) | None => 0 end).
    { intros f u v i Hi. replace i with (2 * 0 + i) at 1 by lia. rewrite lane_lsh by (first [reflexivity | cbn; lia]). destruct (f i) as [[m k]|]; reflexivity. }
    assert (id = 0 \/ id = 1) as [-> | ->] by lia; cbn [Z.eqb Pos.eqb]; rewrite HS by lia;
      assert (j = 0 \/ j = 1) as [-> | ->] by lia; cbn [Z.eqb Pos.eqb p_shuffle1 fst snd nth]; first [exact HL | reflexivity].
  Qed.
  Lemma zip32_64 : 0 <= x < 2 ^ 64 ->
    lane 64 0 (lsh 32 128 4 (p_zip 4 false) [mm_cvtsi32 (wrap 32 x); mm_cvtsi32 (wrap 32 (Z.shiftr x 32))]) = wrap 64 x.
  Proof.
    intros Hx. change 64 with (32 * 2) at 1. rewrite lane_double by lia.
    change (2 * 0) with (4 * 0 + 0). rewrite lane_lsh by (first [reflexivity | cbn; lia]).
    change (4 * 0 + 0 + 1) with (4 * 0 + 1). rewrite lane_lsh by (first [reflexivity | cbn; lia]).
    change (p_zip 4 false 0) with (fromA 0). change (p_zip 4 false 1) with (fromB 0). cbn [nth]. change (4 * 0 + 0) with 0.
    rewrite !lane_0 by lia. unfold mm_cvtsi32. rewrite !wrap_wrap. rewrite (wrap_small 64) by lia. unfold wrap.
    rewrite Z.shiftr_div_pow2 by lia. rewrite (Z.mod_small (x / 2 ^ 32)).
    - pose proof (Z.div_mod x (2 ^ 32) ltac:(lia)). lia.
    - split; [apply Z.div_pos; lia|apply Z.div_lt_upper_bound; [lia|]]. change (2 ^ 64) with (2 ^ 32 * 2 ^ 32) in Hx. lia.
  Qed.
  Ltac fin := fam HV; rw_flags; cbn [orb andb negb]; repeat split_if; try reflexivity; vimp HV.
  Lemma insert128_int e : e = I8 \/ e = I16 \/ e = I32 \/ e = I64 -> 0 <= id < 128 / eb e -> 0 <= x < 2 ^ eb e -> insert128 A fp e id a x = Ok (ins (eb e) 128 id x a).
  Proof.
    intros HE Hid Hx. assert (HA : avail_et A e R128 = true) by (destruct e; reflexivity).
    pose proof (i_block A fp HV e a HA Hp id x Hid Hx) as EB.
    destruct HE as [-> | [-> | [-> | ->]]]; unfold insert128; cbv beta zeta; cbn [eb] in *; cbv beta iota.
    - change (128 / 8) with 16 in Hid. change (8 / 8) with 1 in *. rewrite EB. clear EB.
      match goal with |- context [Ok (ins 16 128 (id / 2) ?t a)] => assert (ins 16 128 (id / 2) t a = ins 8 128 id x a) as -> end.
      { pose proof (Z.mod_pos_bound id 2 ltac:(lia)). destruct (Z.eqb_spec (id mod 2) 1); [apply ins8_hi|apply ins8_lo]; auto; lia. }
      fin.
    - rewrite EB. clear EB. fin.
    - change (128 / 32) with 4 in Hid. change (32 / 8) with 4 in *. rewrite EB. clear EB. cbn [bind]. rewrite ins16_32 by lia. fin.
    - change (128 / 64) with 2 in Hid. change (64 / 8) with 8 in *. rewrite EB. clear EB.
      assert (HX : 0 <= wrap 32 x < 2 ^ 32) by (apply wrap_range; lia).
      assert (HZ : i_zip A I32 R128 false (mm_cvtsi32 (wrap 32 x)) (mm_cvtsi32 (wrap 32 (Z.shiftr x 32))) = Ok (lsh 32 128 4 (p_zip 4 false) [mm_cvtsi32 (wrap 32 x); mm_cvtsi32 (wrap 32 (Z.shiftr x 32))])).
      { apply (i_zip_ok A I32 R128 false); auto; unfold mm_cvtsi32, reg; rewrite wrap_wrap; cbn [rbits];
          [pose proof (wrap_range 32 x ltac:(lia))|pose proof (wrap_range 32 (Z.shiftr x 32) ltac:(lia))]; lia. }
      rewrite HZ. clear HZ.
      pose proof (ins64_sh (lsh 32 128 4 (p_zip 4 false) [mm_cvtsi32 (wrap 32 x); mm_cvtsi32 (wrap 32 (Z.shiftr x 32))]) Hid ltac:(apply lsh_reg; reflexivity) (zip32_64 Hx)) as E1.
      assert (reg 128 (mm_cvtsi64 x)) as Hr.
      { unfold mm_cvtsi64, reg. pose proof (wrap_range 64 x ltac:(lia)). lia. }
      pose proof (ins64_sh (mm_cvtsi64 x) Hid Hr) as E2.
      specialize (E2 ltac:(unfold mm_cvtsi64; rewrite lane_0 by lia; apply wrap_wrap)).
      pose proof (ins_double 32 128 id x a ltac:(reflexivity) ltac:(reflexivity) ltac:(exact Hid)) as E3. change (32 * 2) with 64 in E3.
      rewrite E3.
      fam HV; rw_flags; cbn [orb andb negb bind]; repeat (split_if; cbn [bind]);
        lazymatch goal with
        | |- Ok _ = Ok _ => first [reflexivity | rewrite E3; reflexivity]
        | |- _ => first [exact E1 | exact E2 | vimp HV]
        end.
  Qed.
  Lemma insert128_ok e : 0 <= id < 128 / eb e -> 0 <= x < 2 ^ eb e -> insert128 A fp e id a x = Ok (ins (eb e) 128 id x a).
  Proof.
    intros Hid Hx. destruct e; try (apply insert128_int; auto 10; fail).
    - transitivity (if use_neon A && use_neon_flt_sp A then Ok (ins 32 128 id x a) else insert128 A fp I32 id a x); [reflexivity|].
      rewrite insert128_int; auto. destruct (_ && _); reflexivity.
    - transitivity (if use_sse2 A then (if id =? 0 then Ok (mm_shuffle_pd 128 2 (mm_set1 64 128 x) a) else Ok (mm_shuffle_pd 128 2 a (mm_set1 64 128 x)))
                    else insert128 A fp I64 id a x); [reflexivity|].
      rewrite insert128_int; auto. rewrite ins64_pd; auto. destruct (use_sse2 A); reflexivity.
  Qed.
End I.
Lemma i_insert_ok A fp s e id a x : valid_arch A = true -> fp mod (rbits s / 8) = 0 -> avail_et A e s = true -> reg (rbits s) a ->
  0 <= id < rbits s / eb e -> 0 <= x < 2 ^ eb e ->
  i_insert A fp e s id a x = Ok (ins (eb e) (rbits s) id x a).
Proof.
  intros HV Hp HA Ha Hid Hx. destruct (sub128 fp s Hp e id a Hid) as (H1 & H2 & H3).
  assert (Hr : reg 128 (mm_extract128 (id / (128 / eb e)) a)) by (apply lane_range; lia).
  assert (E : if_wide A e s (let* t := Ok (ins (eb e) 128 (id mod (128 / eb e)) x (mm_extract128 (id / (128 / eb e)) a)) in
                             Ok (ins 128 (rbits s) (id / (128 / eb e)) t a)) = Ok (ins (eb e) (rbits s) id x a)).
  { unfold if_wide. rewrite HA. cbn [bind]. apply f_equal.
    assert (128 = eb e * (128 / eb e) /\ 0 < 128 / eb e /\ 0 < eb e) as (E128 & Hn & Hb) by (destruct e; repeat split; reflexivity).
    match goal with |- ins 128 ?R ?i ?t ?u = _ => replace (ins 128 R i t u) with (ins (eb e * (128 / eb e)) R i t u) by (rewrite <- E128; reflexivity) end.
    apply ins_part; auto using wokR.
    - rewrite <- E128. destruct s; reflexivity.
    - intros j Hj. rewrite lane_ins by (auto using wok128). destruct (j =? _); [reflexivity|]. unfold mm_extract128.
      match goal with |- lane ?w ?j (lane 128 ?i ?t) = _ => replace (lane 128 i t) with (lane (eb e * (128 / eb e)) i t) by (rewrite <- E128; reflexivity) end.
      rewrite lane_lane by lia. f_equal. lia. }
  assert (E2 : if_wide A e s (let* t := insert128 A fp e (id mod (128 / eb e)) (mm_extract128 (id / (128 / eb e)) a) x in
                             Ok (ins 128 (rbits s) (id / (128 / eb e)) t a)) = Ok (ins (eb e) (rbits s) id x a)).
  { rewrite insert128_ok by (auto using (p16 fp s Hp)). exact E. }
  unfold i_insert. destruct s eqn:Es; [apply insert128_ok; auto| |].
  - destruct e; try exact E; try exact E2. change (rbits R256 =? 256) with true. rewrite andb_true_r.
    destruct (use_avx2 A) eqn:EA; [|exact E2]. unfold if_wide. rewrite HA.
    rewrite i_set_splat_ok; auto; try (unfold reg; lia); try discriminate. cbn [bind]. apply f_equal.
    apply ins_eq; [reflexivity|apply pack_reg; reflexivity|]. intros j Hj. unfold mm_blend. rewrite lane_pack by (auto; reflexivity).
    rewrite Z.pow2_bits_eqb by lia. rewrite Z.eqb_sym. destruct (j =? id); [|apply wrap_lane].
    rewrite lane_splat by (auto; reflexivity). apply wrap_wrap.
  - destruct e; try exact E; try exact E2. change (rbits R512 =? 256) with false. rewrite andb_false_r. exact E2.
Qed.
