(** store_u, store_first, store_last, store_masked of one register. *)
From Verif Require Export Proof.LoadStoreP Proof.PermuteP.

Ltac lads HV HA leaf :=
  fam HV; repeat split_if;
  lazymatch goal with
  | |- stored _ _ _ _ _ _ UB => vimp HV
  | |- stored _ _ _ _ _ _ NotImpl => first [ cbn in HA; fcontra | vimp HV ]
  | |- _ => first [ leaf | vimp HV ]
  end.

(** the 16-byte blocks that hold the first and the last of the 16 bytes at p *)
Definition two_blocks (p : Z) (m : mem) : Prop := accessible m (blk p) 16 /\ accessible m (blk (p + 15)) 16.

Lemma vmx_store w p a m : two_blocks p m ->
  stored w 128 all a p m
   (let* msq := vec_ld 0 p m in
    let* lsq := vec_ld 15 p m in
    let edges := vec_perm lsq msq (vec_lvsl p) in
    let align := vec_lvsr p in
    let msq := vec_perm edges a align in
    let lsq := vec_perm a edges align in
    let* m := vec_st lsq 15 p m in
    vec_st msq 0 p m).
Proof.
  intros [A1 A2]. unfold vec_ld, vec_st. rewrite Z.add_0_r.
  rewrite !rd_ok by first [easy|assumption]. cbn [bind]. cbv zeta.
  rewrite wr_reg_ok by exact A2. cbn [bind].
  rewrite wr_reg_ok by (apply acc_put; exact A1).
  eexists. split; [reflexivity|]. intros q. change (128 / 8) with 16.
  pose proof (mod16 p) as Hm.
  set (M := view 128 (blk p) m). set (L := view 128 (blk (p + 15)) m).
  assert (BM : forall j, 0 <= j < 16 -> lane 8 j M = byte_at m (blk p + j)) by (intros; apply byte_view; auto; reflexivity).
  assert (BL : forall j, 0 <= j < 16 -> lane 8 j L = byte_at m (blk (p + 15) + j)) by (intros; apply byte_view; auto; reflexivity).
  set (E := vec_perm L M (vec_lvsl p)).
  assert (BE : forall j, 0 <= j < 16 -> lane 8 j E = if p mod 16 + j <? 16 then lane 8 (p mod 16 + j) L else lane 8 (p mod 16 + j - 16) M).
  { intros j Hj. unfold E, vec_lvsl. apply lane_perm; auto. intros; lia. }
  assert (BN : forall j, 0 <= j < 16 -> 0 <= 16 - p mod 16 + j < 32) by (intros; lia).
  assert (B1 : forall j, 0 <= j < 16 -> lane 8 j (vec_perm E a (vec_lvsr p)) = if j <? p mod 16 then lane 8 (16 - p mod 16 + j) E else lane 8 (j - p mod 16) a).
  { intros j Hj. unfold vec_lvsr. rewrite lane_perm by auto.
    destruct (Z.ltb_spec (16 - p mod 16 + j) 16), (Z.ltb_spec j (p mod 16)); try lia; auto. f_equal. lia. }
  assert (B2 : forall j, 0 <= j < 16 -> lane 8 j (vec_perm a E (vec_lvsr p)) = if j <? p mod 16 then lane 8 (16 - p mod 16 + j) a else lane 8 (j - p mod 16) E).
  { intros j Hj. unfold vec_lvsr. rewrite lane_perm by auto.
    destruct (Z.ltb_spec (16 - p mod 16 + j) 16), (Z.ltb_spec j (p mod 16)); try lia; auto. f_equal. lia. }
  pose proof (blk_15 p) as K. assert (Kp : blk p = p - p mod 16) by reflexivity.
  destruct (Z.eqb_spec (p mod 16) 0) as [Z0|Z0].
  - (* aligned: one block *)
    destruct (in_dec_Z p 16 q) as [Hq|Hq].
    + rewrite !put_in by lia. unfold sel_bytes. cbn [all]. f_equal.
      rewrite B1 by lia. destruct (Z.ltb_spec (q - blk p) (p mod 16)); [lia|]. f_equal. lia.
    + rewrite !put_out by lia. reflexivity.
  - destruct (in_dec_Z (blk p) 16 q) as [Hq|Hq].
    + rewrite put_in by lia. unfold sel_bytes at 1. cbn [all]. rewrite B1 by lia.
      destruct (Z.ltb_spec (q - blk p) (p mod 16)).
      * rewrite (put_out 16 p) by lia. rewrite BE by lia.
        destruct (Z.ltb_spec (p mod 16 + (16 - p mod 16 + (q - blk p))) 16); [lia|].
        rewrite BM by lia. replace (blk p + _) with q by lia. symmetry. apply (acc_byte _ _ _ _ A1). lia.
      * rewrite (put_in 16 p) by lia. unfold sel_bytes. cbn [all]. do 2 f_equal. lia.
    + rewrite (put_out 16 (blk p)) by lia.
      destruct (in_dec_Z (blk (p + 15)) 16 q) as [Hq2|Hq2].
      * rewrite put_in by lia. unfold sel_bytes at 1. cbn [all]. rewrite B2 by lia.
        destruct (Z.ltb_spec (q - blk (p + 15)) (p mod 16)).
        -- rewrite (put_in 16 p) by lia. unfold sel_bytes. cbn [all]. do 2 f_equal. lia.
        -- rewrite (put_out 16 p) by lia. rewrite BE by lia.
           destruct (Z.ltb_spec (p mod 16 + (q - blk (p + 15) - p mod 16)) 16); [|lia].
           rewrite BL by lia. replace (blk (p + 15) + _) with q by lia. symmetry. apply (acc_byte _ _ _ _ A2). lia.
      * rewrite put_out by lia. rewrite (put_out 16 p) by lia. reflexivity.
Qed.

Section S.
  Variables (A : arch).
  Hypothesis HV : valid_arch A = true.

  Definition vmxs (e : et) : bool :=
    use_altivec A && negb (use_vsx206 A) && match e with F64 => false | _ => true end.
  Lemma i_store_u_ok e s p a m : avail_et A e s = true -> u_pre e s p m ->
    (vmxs e = true -> two_blocks p m) -> stored (eb e) (rbits s) all a p m (i_store_u A e s p a m).
  Proof.
    intros HA [Hp Ha] Hx. destruct s.
    - cbn [rbits] in *. change (128 / 8) with 16 in *.
      assert (Hal : aligned (eb e / 8) p = true) by (apply Z.eqb_eq, Hp).
      assert (Hal8 : aligned (8 / 8) p = true) by (apply Z.eqb_eq, Z.mod_1_r).
      pose proof (st_full (eb e) p a m Ha) as E3.
      pose proof (vst1q_ok (eb e) p a m Ha (eb e) (wok128 e) (wok8e e) Hal) as E4.
      pose proof (vst1q_ok (eb e) p a m Ha 8 eq_refl eq_refl Hal8) as E4'.
      pose proof (nullst_ok (eb e) p a m Ha (eb e) (wok128 e) (wok8e e) Hal) as E5.
      pose proof (nullst_ok (eb e) p a m Ha 8 eq_refl eq_refl Hal8) as E5'.
      assert (E6 : (forall b, e = F64 -> use_altivec A = b -> b = false) -> stored (eb e) 128 all a p m (i_store_u8 A p a m)).
      { intros Hc. unfold i_store_u8, mm_storeu, vec_vsx_st, msa_st. lads HV HV ltac:(first [assumption|idtac]).
        apply vmx_store, Hx. unfold vmxs. rw_flags. destruct e; try reflexivity. exfalso. specialize (Hc _ eq_refl eq_refl). fcontra. }
      unfold i_store_u, mm_storeu, vec_vsx_st, msa_st, use_neon_no_flt_sp, use_neon64.
      destruct e; cbn [eb] in *; try (apply E6; discriminate);
        lads HV HV ltac:(first [assumption | apply E6; discriminate]).
    - unfold i_store_u, if_wide. rewrite HA. apply stored_full. exact Ha.
    - unfold i_store_u, if_wide. rewrite HA. apply stored_full. exact Ha.
  Qed.

  (** blending with the old contents *)
  Lemma mask_tbl_tfv w s x y off c : wok w (rbits s) = true -> (forall i, 0 <= i < rbits s / w -> wrap w (if off + i <? rbits s / w then x else y) = tf w (c i)) ->
    mask_tbl w s x y off = tfv w (rbits s) c.
  Proof.
    intros H1 H. unfold mask_tbl. apply eq_tfv; [auto|apply pack_reg; auto|]. intros i Hi. rewrite lane_pack by auto. auto.
  Qed.
  Lemma ones_zeros_tfv w s n : wok w (rbits s) = true -> ones_zeros w s (rbits s / w - n) = tfv w (rbits s) (fun i => i <? n).
  Proof.
    intros H1. destruct (wok_spec _ _ H1) as (Hw & _). apply mask_tbl_tfv; auto. intros i Hi. unfold tf.
    destruct (Z.ltb_spec (rbits s / w - n + i) (rbits s / w)), (Z.ltb_spec i n); try lia; [apply wrap_m1; lia|apply wrap_0].
  Qed.
  Lemma zeros_ones_tfv w s n : wok w (rbits s) = true -> zeros_ones w s n = tfv w (rbits s) (fun i => rbits s / w - n <=? i).
  Proof.
    intros H1. destruct (wok_spec _ _ H1) as (Hw & _). apply mask_tbl_tfv; auto. intros i Hi. unfold tf.
    destruct (Z.ltb_spec (n + i) (rbits s / w)), (Z.leb_spec (rbits s / w - n) i); try lia; [apply wrap_0|apply wrap_m1; lia].
  Qed.
  Lemma bsel_byte w R a b c j : wok w R = true -> wok 8 w = true -> reg R a -> reg R b -> 0 <= j < R / 8 ->
    lane 8 j (bsel a b (tfv w R c)) = if c (j / (w / 8)) then lane 8 j a else lane 8 j b.
  Proof.
    intros H1 H3 Ha Hb Hj. destruct (wok_div _ _ H1 H3) as (Hk & Rd & E3). destruct (wok_spec _ _ H1) as (Hw & HR & E & En).
    rewrite lane_bsel by lia.
    replace (lane 8 j (tfv w R c)) with (tf 8 (c (j / (w / 8)))).
    - apply bsel_tf; try lia; apply lane_range; lia.
    - pose proof (Z.div_mod j (w / 8) ltac:(lia)) as D. pose proof (Z.mod_pos_bound j (w / 8) Hk) as M.
      rewrite D at 2. rewrite (Z.mul_comm (w / 8)). rewrite <- lane_lane by (try lia; apply Z.div_pos; lia).
      rewrite <- E3. rewrite lane_tfv; [|exact H1|split; [apply Z.div_pos; lia|apply Z.div_lt_upper_bound; nia]].
      symmetry. replace (tf w (c (j / (w / 8)))) with (tf (8 * (w / 8)) (c (j / (w / 8)))) by (rewrite <- E3; reflexivity).
      apply lane8_tf; lia.
  Qed.
  Lemma blend8_stored s w c a p m : wok w (rbits s) = true -> wok 8 w = true ->
    avail_int A 8 s = true -> reg (rbits s) a -> p mod (rbits s / 8) = 0 -> accessible m p (rbits s / 8) ->
    (forall j, 0 <= j < rbits s / 8 -> True) ->
    stored w (rbits s) c a p m (blend_at8 A s p a (tfv 8 (rbits s) (fun j => c (j / (w / 8)))) m).
  Proof.
    intros H1 H3 HA Ha Hp Hacc _. unfold blend_at8. rewrite (i_load_ok A HV I8 s) by auto. cbn [bind].
    assert (Hv : reg (rbits s) (view (rbits s) p m)) by (apply view_reg, wok8R).
    rewrite (i_blend_ok A W8 s HV HA) by auto. cbn [bind wb].
    apply (stored_blend w (rbits s) c a (bsel a (view (rbits s) p m) (tfv 8 (rbits s) (fun j => c (j / (w / 8))))) p m); auto.
    - intros j Hj. rewrite bsel_byte by (auto using wok8R). change (8 / 8) with 1. rewrite Z.div_1_r.
      destruct (c _); auto. apply byte_view; auto using wok8R.
    - apply (i_store_ok A HV I8 s); auto.
  Qed.
  (** blend(b, a, complement) *)
  Lemma blend8c_stored c a p m mask : mask = tfv 8 128 (fun j => negb (c j)) ->
    reg 128 a -> p mod 16 = 0 -> accessible m p 16 ->
    stored 8 128 c a p m
      (let* b := i_load A I8 R128 p m in let* b := i_blend A W8 R128 b a mask in i_store A I8 R128 p b m).
  Proof.
    intros -> Ha Hp Hacc. rewrite (i_load_ok A HV I8 R128) by auto. cbn [bind].
    assert (Hv : reg 128 (view 128 p m)) by (apply view_reg; reflexivity).
    change 128 with (rbits R128) in Hv. change 8 with (wb W8) at 2. rewrite (i_blend_ok A W8 R128 HV eq_refl) by auto. cbn [bind wb rbits].
    apply (stored_blend 8 128 c a (bsel (view 128 p m) a (tfv 8 128 (fun j => negb (c j)))) p m); auto.
    - intros j Hj. rewrite bsel_byte by (auto). change (8 / 8) with 1. rewrite Z.div_1_r.
      destruct (c _); cbn [negb]; auto. apply byte_view; auto.
    - apply (i_store_ok A HV I8 R128); auto.
  Qed.
  Lemma slo_tfv n : 0 <= n < 16 -> vec_slo (ones 128) (wrap 8 (Z.shiftl n 3)) = tfv 8 128 (fun j => negb (j <? n)).
  Proof.
    intros Hn. apply eq_tfv; [reflexivity|apply Z.mod_pos_bound; reflexivity|].
    assert (E : wrap 8 (Z.shiftl n 3) / 8 mod 16 = n).
    { rewrite Z.shiftl_mul_pow2 by lia. change (2 ^ 3) with 8. rewrite wrap_small by (change (2 ^ 8) with 256; lia).
      rewrite Z.div_mul by lia. apply Z.mod_small. lia. }
    intros i Hi. unfold vec_slo. rewrite E. clear E. change (128 / 8) with 16 in Hi.
    apply Z.bits_inj'. intros k Hk. rewrite testbit_lane by lia.
    fold (wrap 128 (ones 128 * 2 ^ (8 * n))). rewrite testbit_wrap by lia.
    unfold tf. destruct (Z.ltb_spec k 8).
    - rewrite Z.mul_pow2_bits by lia. change (ones 128) with (Z.ones 128).
      destruct (Z.ltb_spec (8 * i + k) 128); [|lia]. cbn [andb].
      destruct (Z.ltb_spec i n); cbn [negb].
      + rewrite Z.bits_0, Z.testbit_neg_r by lia. reflexivity.
      + rewrite Z.ones_spec_low by lia. change (ones 8) with (Z.ones 8). rewrite Z.ones_spec_low by lia. reflexivity.
    - destruct (negb _); [|rewrite Z.bits_0; reflexivity]. change (ones 8) with (Z.ones 8). rewrite Z.ones_spec_high by lia. reflexivity.
  Qed.
  Lemma sro_tfv n : 0 <= n < 16 -> vec_sro (ones 128) (wrap 8 (Z.shiftl n 3)) = tfv 8 128 (fun j => negb (16 - n <=? j)).
  Proof.
    intros Hn.
    assert (E : wrap 8 (Z.shiftl n 3) / 8 mod 16 = n).
    { rewrite Z.shiftl_mul_pow2 by lia. change (2 ^ 3) with 8. rewrite wrap_small by (change (2 ^ 8) with 256; lia).
      rewrite Z.div_mul by lia. apply Z.mod_small. lia. }
    unfold vec_sro. rewrite E. clear E. rewrite <- Z.shiftr_div_pow2 by lia.
    apply eq_tfv; [reflexivity| |].
    - split; [apply Z.shiftr_nonneg; easy|]. rewrite Z.shiftr_div_pow2 by lia.
      apply Z.div_lt_upper_bound; [apply pow2_pos; lia|]. assert (1 <= 2 ^ (8 * n)) by (pose proof (pow2_pos (8 * n) ltac:(lia)); lia).
      assert (ones 128 < 2 ^ 128) by reflexivity. assert (0 < 2 ^ 128) by reflexivity. rewrite Z.mul_comm.
      eapply Z.lt_le_trans; [eassumption|]. rewrite <- (Z.mul_1_r (2 ^ 128)) at 1. apply Z.mul_le_mono_nonneg_l; lia.
    - intros i Hi. change (128 / 8) with 16 in Hi.
      apply Z.bits_inj'. intros k Hk. rewrite testbit_lane by lia. rewrite Z.shiftr_spec by lia.
      change (ones 128) with (Z.ones 128). change (ones 8) with (Z.ones 8). unfold tf.
      destruct (Z.ltb_spec k 8).
      + destruct (Z.leb_spec (16 - n) i); cbn [negb].
        * rewrite Z.ones_spec_high by lia. rewrite Z.bits_0. reflexivity.
        * rewrite Z.ones_spec_low by lia. change (ones 8) with (Z.ones 8). rewrite Z.ones_spec_low by lia. reflexivity.
      + cbn [andb]. destruct (negb _); [|rewrite Z.bits_0; reflexivity]. change (ones 8) with (Z.ones 8). rewrite (Z.ones_spec_high 8) by lia. reflexivity.
  Qed.
  Lemma sld_tfv n : 0 <= n < 16 -> msa_sld (ones 128) 0 n = tfv 8 128 (fun j => 16 - n <=? j).
  Proof.
    intros Hn. apply eq_tfv; [reflexivity|apply pack_reg; reflexivity|].
    intros i Hi. change (128 / 8) with 16 in Hi. unfold msa_sld. rewrite (Z.mod_small n) by lia.
    replace i with (16 * 0 + i) at 1 by lia.
    rewrite lane_lsh by (first [reflexivity|lia|split; reflexivity || discriminate]).
    destruct (Z.ltb_spec (i + n) 16), (Z.leb_spec (16 - n) i); try lia.
    - cbn. apply lane_of_zero.
    - cbn. assert (Hc : i + n - 16 = 0 \/ i + n - 16 = 1 \/ i + n - 16 = 2 \/ i + n - 16 = 3 \/ i + n - 16 = 4 \/ i + n - 16 = 5 \/ i + n - 16 = 6 \/ i + n - 16 = 7
        \/ i + n - 16 = 8 \/ i + n - 16 = 9 \/ i + n - 16 = 10 \/ i + n - 16 = 11 \/ i + n - 16 = 12 \/ i + n - 16 = 13 \/ i + n - 16 = 14) by lia.
      repeat (destruct Hc as [-> | Hc]; [vm_compute; reflexivity|]). rewrite Hc. vm_compute. reflexivity.
  Qed.
End S.
