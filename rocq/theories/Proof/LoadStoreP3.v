(** store_first, store_last of one register. *)
From Verif Require Export Proof.LoadStoreP2 Proof.FloatsP2.

Lemma ltb_div j k n : 0 < k -> (j / k <? n) = (j <? n * k).
Proof.
  intros Hk. pose proof (Z.div_mod j k ltac:(lia)). pose proof (Z.mod_pos_bound j k Hk).
  destruct (Z.ltb_spec (j / k) n), (Z.ltb_spec j (n * k)); auto; nia.
Qed.
Lemma leb_div j k n N : 0 < k -> (N - n <=? j / k) = (N * k - n * k <=? j).
Proof.
  intros Hk. pose proof (Z.div_mod j k ltac:(lia)). pose proof (Z.mod_pos_bound j k Hk).
  destruct (Z.leb_spec (N - n) (j / k)), (Z.leb_spec (N * k - n * k) j); auto; nia.
Qed.

Section S.
  Variables (A : arch).
  Hypothesis HV : valid_arch A = true.

  Lemma blend8_ext s c c' a p m : avail_int A 8 s = true -> reg (rbits s) a -> p mod (rbits s / 8) = 0 ->
    accessible m p (rbits s / 8) -> (forall j, c j = c' j) ->
    stored 8 (rbits s) c a p m (blend_at8 A s p a (tfv 8 (rbits s) c') m).
  Proof.
    intros HA Ha Hp Hacc E.
    apply (stored_ext 8 (rbits s) c'); auto using wok8R.
    apply (stored_ext 8 (rbits s) c'); auto using wok8R.
    replace (tfv 8 (rbits s) c') with (tfv 8 (rbits s) (fun j => c' (j / (8 / 8)))).
    - apply blend8_stored; auto using wok8R.
    - unfold tfv. apply pack_ext; [apply wok8R|]. intros i Hi. change (8 / 8) with 1. rewrite Z.div_1_r. reflexivity.
  Qed.

  Lemma i_store_first8_ok s p a n m : avail_int A 8 s = true -> reg (rbits s) a -> p mod (rbits s / 8) = 0 ->
    accessible m p (rbits s / 8) -> 0 <= n < rbits s / 8 ->
    stored 8 (rbits s) (fun j => j <? n) a p m (i_store_first8 A s p a n m).
  Proof.
    intros HA Ha Hp Hacc Hn.
    assert (E1 : stored 8 (rbits s) (fun j => j <? n) a p m (blend_at8 A s p a (ones_zeros 8 s (rbits s / 8 - n)) m)).
    { rewrite ones_zeros_tfv by apply wok8R. apply blend8_ext; auto. }
    destruct s.
    - cbn [rbits] in *. change (128 / 8) with 16 in *.
      pose proof (null_store_first_ok 8 p a n m eq_refl eq_refl (aligned_16 p 8 eq_refl eq_refl Hp) Hacc (proj1 Hn)) as E2.
      pose proof (blend8c_stored A HV (fun j => j <? n) a p m _ (slo_tfv n Hn) Ha Hp Hacc) as E3.
      unfold i_store_first8, assume_aligned. rewrite (al16 p Hp). cbn [require].
      lads HV HV assumption.
    - unfold i_store_first8, if_wide. cbn [avail_et eb]. rewrite HA. exact E1.
    - unfold i_store_first8, if_wide. cbn [avail_et eb]. rewrite HA. exact E1.
  Qed.
  Lemma i_store_last8_ok s p a n m : avail_int A 8 s = true -> reg (rbits s) a -> p mod (rbits s / 8) = 0 ->
    accessible m p (rbits s / 8) -> 0 <= n < rbits s / 8 ->
    stored 8 (rbits s) (fun j => rbits s / 8 - n <=? j) a p m (i_store_last8 A s p a n m).
  Proof.
    intros HA Ha Hp Hacc Hn.
    assert (E1 : stored 8 (rbits s) (fun j => rbits s / 8 - n <=? j) a p m (blend_at8 A s p a (zeros_ones 8 s n) m)).
    { rewrite zeros_ones_tfv by apply wok8R. apply blend8_ext; auto. }
    destruct s.
    - cbn [rbits] in *. change (128 / 8) with 16 in *.
      pose proof (null_store_last_ok 8 p a n m eq_refl eq_refl (aligned_16 p 8 eq_refl eq_refl Hp) Hacc ltac:(change (128 / 8) with 16; lia)) as E2.
      pose proof (blend8c_stored A HV (fun j => 16 - n <=? j) a p m _ (sro_tfv n Hn) Ha Hp Hacc) as E3.
      assert (E4 : stored 8 128 (fun j => 16 - n <=? j) a p m (blend_at8 A R128 p a (msa_sld (ones 128) 0 n) m)).
      { rewrite sld_tfv by lia. apply (blend8_ext R128); auto. }
      unfold i_store_last8, assume_aligned. rewrite (al16 p Hp). cbn [require].
      lads HV HV assumption.
    - unfold i_store_last8, if_wide, assume_aligned. cbn [avail_et eb]. rewrite HA, (aligned_R p R256 Hp). exact E1.
    - unfold i_store_last8, if_wide, assume_aligned. cbn [avail_et eb]. rewrite HA, (aligned_R p R512 Hp). exact E1.
  Qed.

  Lemma first_bytes s w p a n m : wok w (rbits s) = true -> wok 8 w = true -> avail_int A 8 s = true ->
    reg (rbits s) a -> p mod (rbits s / 8) = 0 -> accessible m p (rbits s / 8) -> 0 <= n < rbits s / w ->
    stored w (rbits s) (fun i => i <? n) a p m (i_store_first8 A s p a (n * (w / 8)) m).
  Proof.
    intros H1 H3 HA Ha Hp Hacc Hn. destruct (wok_div _ _ H1 H3) as (Hk & Rd & E3).
    apply stored_bytes; auto. eapply stored_ext; [apply wok8R|reflexivity| |apply i_store_first8_ok; auto; nia].
    intros j Hj. cbv beta. symmetry. apply ltb_div. lia.
  Qed.
  Lemma last_bytes s w p a n m : wok w (rbits s) = true -> wok 8 w = true -> avail_int A 8 s = true ->
    reg (rbits s) a -> p mod (rbits s / 8) = 0 -> accessible m p (rbits s / 8) -> 0 <= n < rbits s / w ->
    stored w (rbits s) (fun i => rbits s / w - n <=? i) a p m (i_store_last8 A s p a (n * (w / 8)) m).
  Proof.
    intros H1 H3 HA Ha Hp Hacc Hn. destruct (wok_div _ _ H1 H3) as (Hk & Rd & E3).
    apply stored_bytes; auto. eapply stored_ext; [apply wok8R|reflexivity| |apply i_store_last8_ok; auto; nia].
    intros j Hj. cbv beta. rewrite leb_div by lia. f_equal. lia.
  Qed.

  (** hardware masked stores *)
  Lemma masked_put w R p c c' a m : wok w R = true -> wok 8 w = true -> accessible m p (R / 8) ->
    (forall i, 0 <= i < R / w -> c' i = c i) -> stored w R c a p m (wr (R / 8) p (sel_bytes w c' a) m).
  Proof.
    intros H1 H3 Hacc E. apply (stored_ext w R c'); auto. rewrite wr_acc by auto. eexists. split; [reflexivity|]. reflexivity.
  Qed.
  Lemma maskstore_ok w R p c a m : wok w R = true -> wok 8 w = true -> accessible m p (R / 8) ->
    stored w R c a p m (mm_maskstore w R p (tfv w R c) a m).
  Proof.
    intros H1 H3 Hacc. destruct (wok_spec _ _ H1) as (Hw & HR & E & En). apply masked_put; auto.
    intros i Hi. rewrite lane_tfv by auto. apply tf_top. lia.
  Qed.
  Lemma mask_store_ok w R p c k a m : wok w R = true -> wok 8 w = true -> accessible m p (R / 8) -> p mod (R / 8) = 0 ->
    (forall i, 0 <= i < R / w -> Z.testbit k i = c i) ->
    stored w R c a p m (mm_mask_store w R p k a m).
  Proof.
    intros H1 H3 Hacc Hp H. unfold mm_mask_store, aligned. rewrite Hp. cbn [Z.eqb require]. apply masked_put; auto.
  Qed.
  Lemma shr_bits N n i : 0 <= n <= N -> 0 <= i < N -> Z.testbit (Z.shiftr (Z.ones N) (N - n)) i = (i <? n).
  Proof.
    intros Hn Hi. rewrite Z.shiftr_spec by lia. destruct (Z.ltb_spec i n); [apply Z.ones_spec_low|apply Z.ones_spec_high]; lia.
  Qed.
  Lemma shl_bits N n i : 0 <= n <= N -> 0 <= i < N -> Z.testbit (Z.shiftl (Z.ones N) (N - n)) i = (N - n <=? i).
  Proof.
    intros Hn Hi. rewrite Z.shiftl_spec by lia. destruct (Z.leb_spec (N - n) i); [apply Z.ones_spec_low; lia|apply Z.testbit_neg_r; lia].
  Qed.

  (** 64-bit lanes of a 128-bit register *)
  Lemma two_sel a p m (c : Z -> bool) i r : p mod 16 = 0 -> accessible m p 16 -> 0 <= i < 2 ->
    (forall j, 0 <= j < 2 -> (j =? i) = c j) ->
    r = st_el 64 (p + i * 8) (lane 64 i a) m -> stored 64 128 c a p m r.
  Proof.
    intros Hp Hacc Hi H ->. apply (stored_ext 64 128 (fun j => j =? i)); auto.
    apply (stored_el 64 128); auto. apply (aligned_16 p 64); auto.
  Qed.
  Lemma store_sd_el p x m i : p mod 16 = 0 -> mm_store_sd (p + i * 8) x m = st_el 64 (p + i * 8) (lane 64 0 x) m.
  Proof.
    intros Hp. unfold mm_store_sd, st_el. pose proof (aligned_16 p 64 eq_refl eq_refl Hp) as Hal. unfold aligned in *.
    change (64 / 8) with 8 in *. rewrite Z.mod_add by lia. rewrite Hal. reflexivity.
  Qed.
  Lemma none_sel w p a m (c : Z -> bool) : wok w 128 = true -> wok 8 w = true -> accessible m p 16 ->
    (forall j, 0 <= j < 128 / w -> false = c j) -> stored w 128 c a p m (Ok m).
  Proof. intros H1 H3 Hacc H. apply (stored_ext w 128 (fun _ => false)); auto. apply stored_none; auto. Qed.
  Lemma in2 (P : Z -> Prop) : P 0 -> P 1 -> forall j, 0 <= j < 2 -> P j.
  Proof. intros H0 H1 j Hj. assert (j = 0 \/ j = 1) as [-> | ->] by lia; auto. Qed.
  Lemma in4 (P : Z -> Prop) : P 0 -> P 1 -> P 2 -> P 3 -> forall j, 0 <= j < 4 -> P j.
  Proof. intros H0 H1 H2 H3 j Hj. assert (j = 0 \/ j = 1 \/ j = 2 \/ j = 3) as [-> | [-> | [-> | ->]]] by lia; auto. Qed.

  (** n = 0 or 1 elements of two, from the element [i] *)
  Lemma one_of_two (c : Z -> bool) p a m n i r : p mod 16 = 0 -> accessible m p 16 -> 0 <= n < 2 -> 0 <= i < 2 ->
    (forall j, 0 <= j < 2 -> c j = (n =? 1) && (j =? i)) ->
    r = st_el 64 (p + i * 8) (lane 64 i a) m -> stored 64 128 c a p m (if n =? 1 then r else Ok m).
  Proof.
    intros Hp Hacc Hn Hi H ->. destruct (Z.eqb_spec n 1).
    - eapply (two_sel a p m c i); auto. intros j Hj. rewrite H by auto. reflexivity.
    - apply none_sel; auto. intros j Hj. rewrite H by auto. reflexivity.
  Qed.

  Lemma f32_blend_stored c p a m mask : mask = tfv 32 128 c -> reg 128 a -> p mod 16 = 0 -> accessible m p 16 ->
    stored 32 128 c a p m
      (let* b := i_load A F32 R128 p m in let* b := f_blend A false R128 a b mask in i_store A F32 R128 p b m).
  Proof.
    intros -> Ha Hp Hacc. rewrite (i_load_ok A HV F32 R128) by auto. cbn [bind rbits].
    assert (Hv : reg 128 (view 128 p m)) by (apply view_reg; reflexivity).
    pose proof (f_blend_ok A false R128 HV eq_refl a (view 128 p m) c Ha Hv) as Hb.
    change (fw false) with 32 in Hb. cbn [rbits] in Hb. rewrite Hb. cbn [bind].
    apply (stored_blend 32 128 c a (bsel a (view 128 p m) (tfv 32 128 c)) p m); auto.
    - intros j Hj. rewrite bsel_byte by auto.
      destruct (c _); auto. apply byte_view; auto.
    - apply (st_all 8 p (bsel a (view 128 p m) (tfv 32 128 c)) m 32). apply (i_store_ok A HV F32 R128); auto.
  Qed.

  Lemma el32 a p m i : p mod 16 = 0 -> accessible m p 16 -> 0 <= i < 4 ->
    stored 32 128 (fun j => j =? i) a p m (vst1q_lane 32 (p + i * 4) a i m).
  Proof. intros Hp Hacc Hi. apply (stored_el 32 128); auto. apply (aligned_16 p 32); auto. Qed.
  Lemma acc_stored w R sel a p m r q n : stored w R sel a p m (Ok r) -> accessible m q n -> accessible r q n.
  Proof. intros (m' & E & H) Hacc. injection E as ->. eapply acc_ext; [|intros; apply H]. apply acc_put. exact Hacc. Qed.
  Lemma neon_first p a m n : p mod 16 = 0 -> accessible m p 16 -> 0 <= n < 4 ->
    stored 32 128 (fun i => i <? n) a p m
      (if n <? 1 then Ok m else
         let* m := vst1q_lane 32 p a 0 m in
         if n <? 2 then Ok m else
         let* m := vst1q_lane 32 (p + 4) a 1 m in
         if n <? 3 then Ok m else
         vst1q_lane 32 (p + 8) a 2 m).
  Proof.
    intros Hp Hacc Hn.
    assert (AE : forall m1, (forall q, m1 q = put 16 p (sel_bytes 32 (fun j => j =? 0) a) m q) -> accessible m1 p 16).
    { intros m1 Hm. eapply acc_ext; [|exact Hm]. apply acc_put. exact Hacc. }
    assert (H1 : forall m1, accessible m1 p 16 -> stored 32 128 (fun i => (2 <=? i) && (i <? n)) a p m1 (if n <? 3 then Ok m1 else vst1q_lane 32 (p + 8) a 2 m1)).
    { intros m1 Ha1. destruct (Z.ltb_spec n 3).
      - apply none_sel; auto. change (128 / 32) with 4. apply in4; cbn; auto; symmetry; apply Z.ltb_ge; lia.
      - replace n with 3 by lia. eapply stored_ext; [reflexivity|reflexivity| |apply (el32 a p m1 2); auto; lia]. change (128 / 32) with 4. apply in4; reflexivity. }
    assert (H2 : forall m1, accessible m1 p 16 -> stored 32 128 (fun i => (1 <=? i) && (i <? n)) a p m1
       (if n <? 2 then Ok m1 else let* m := vst1q_lane 32 (p + 4) a 1 m1 in if n <? 3 then Ok m else vst1q_lane 32 (p + 8) a 2 m)).
    { intros m1 Ha1. destruct (Z.ltb_spec n 2).
      - apply none_sel; auto. change (128 / 32) with 4. apply in4; cbn; auto; symmetry; apply Z.ltb_ge; lia.
      - eapply stored_ext; [reflexivity|reflexivity| |eapply (stored_seq 32 128); [reflexivity|apply (el32 a p m1 1); auto; lia|]].
        2:{ intros m2 Hm2. apply H1. eapply acc_ext; [|exact Hm2]. apply acc_put. exact Ha1. }
        change (128 / 32) with 4. assert (n = 2 \/ n = 3) as [-> | ->] by lia; apply in4; reflexivity. }
    destruct (Z.ltb_spec n 1).
    - apply none_sel; auto. change (128 / 32) with 4. apply in4; symmetry; apply Z.ltb_ge; lia.
    - eapply stored_ext; [reflexivity|reflexivity| |eapply (stored_seq 32 128); [reflexivity|replace p with (p + 0 * 4) at 2 by lia; apply (el32 a p m 0); auto; lia|]].
      2:{ intros m2 Hm2. apply H2. eapply acc_ext; [|exact Hm2]. apply acc_put. exact Hacc. }
      change (128 / 32) with 4. assert (n = 1 \/ n = 2 \/ n = 3) as [-> | [-> | ->]] by lia; apply in4; reflexivity.
  Qed.
  Lemma neon_last p a m n : p mod 16 = 0 -> accessible m p 16 -> 0 <= n < 4 ->
    stored 32 128 (fun i => 4 - n <=? i) a p m
      (if n <? 1 then Ok m else
         let* m := vst1q_lane 32 (p + 12) a 3 m in
         if n <? 2 then Ok m else
         let* m := vst1q_lane 32 (p + 8) a 2 m in
         if n <? 3 then Ok m else
         vst1q_lane 32 (p + 4) a 1 m).
  Proof.
    intros Hp Hacc Hn.
    assert (H1 : forall m1, accessible m1 p 16 -> stored 32 128 (fun i => (i <=? 1) && (4 - n <=? i)) a p m1 (if n <? 3 then Ok m1 else vst1q_lane 32 (p + 4) a 1 m1)).
    { intros m1 Ha1. destruct (Z.ltb_spec n 3).
      - apply none_sel; auto. change (128 / 32) with 4. apply in4; cbn [andb Z.leb Z.compare Pos.compare Pos.compare_cont]; auto; symmetry; apply Z.leb_gt; lia.
      - replace n with 3 by lia. eapply stored_ext; [reflexivity|reflexivity| |apply (el32 a p m1 1); auto; lia]. change (128 / 32) with 4. apply in4; reflexivity. }
    assert (H2 : forall m1, accessible m1 p 16 -> stored 32 128 (fun i => (i <=? 2) && (4 - n <=? i)) a p m1
       (if n <? 2 then Ok m1 else let* m := vst1q_lane 32 (p + 8) a 2 m1 in if n <? 3 then Ok m else vst1q_lane 32 (p + 4) a 1 m)).
    { intros m1 Ha1. destruct (Z.ltb_spec n 2).
      - apply none_sel; auto. change (128 / 32) with 4. apply in4; cbn [andb Z.leb Z.compare Pos.compare Pos.compare_cont]; auto; symmetry; apply Z.leb_gt; lia.
      - eapply stored_ext; [reflexivity|reflexivity| |eapply (stored_seq 32 128); [reflexivity|apply (el32 a p m1 2); auto; lia|]].
        2:{ intros m2 Hm2. apply H1. eapply acc_ext; [|exact Hm2]. apply acc_put. exact Ha1. }
        change (128 / 32) with 4. assert (n = 2 \/ n = 3) as [-> | ->] by lia; apply in4; reflexivity. }
    destruct (Z.ltb_spec n 1).
    - apply none_sel; auto. change (128 / 32) with 4. apply in4; symmetry; apply Z.leb_gt; lia.
    - eapply stored_ext; [reflexivity|reflexivity| |eapply (stored_seq 32 128); [reflexivity|apply (el32 a p m 3); auto; lia|]].
      2:{ intros m2 Hm2. apply H2. eapply acc_ext; [|exact Hm2]. apply acc_put. exact Hacc. }
      change (128 / 32) with 4. assert (n = 1 \/ n = 2 \/ n = 3) as [-> | [-> | ->]] by lia; apply in4; reflexivity.
  Qed.

  Ltac ld64 := intros; change (128 / 64) with 2 in *;
    lazymatch goal with n : Z, H : 0 <= ?n < 2 |- _ => assert (n = 0 \/ n = 1) as [-> | ->] by lia; apply in2; reflexivity end.
  Lemma i_store_first_ok e s p a n m : avail_et A e s = true -> reg (rbits s) a -> p mod (rbits s / 8) = 0 ->
    accessible m p (rbits s / 8) -> 0 <= n < rbits s / eb e ->
    stored (eb e) (rbits s) (fun i => i <? n) a p m (i_store_first A e s p a n m).
  Proof.
    intros HA Ha Hp Hacc Hn.
    assert (MS : stored (eb e) (rbits s) (fun i => i <? n) a p m
                   (mm_maskstore (eb e) (rbits s) p (ones_zeros (eb e) s (rbits s / eb e - n)) a m)).
    { rewrite ones_zeros_tfv by (destruct e, s; reflexivity). apply maskstore_ok; auto; destruct e, s; reflexivity. }
    destruct s.
    - cbn [rbits] in *. change (128 / 8) with 16 in *.
      pose proof (null_store_first_ok (eb e) p a n m (wok128 e) (wok8e e) (aligned_16 p _ (wok128 e) (wok8e e) Hp) Hacc (proj1 Hn)) as E1.
      pose proof (first_bytes R128 (eb e) p a n m (wok128 e) (wok8e e) eq_refl Ha Hp Hacc Hn) as E2.
      unfold i_store_first, assume_aligned. cbn [rbits]. rewrite (al16 p Hp). cbn [require].
      destruct e; cbn [eb] in *.
      + apply (i_store_first8_ok R128); auto.
      + change (16 / 8) with 2 in E2. lads HV HV assumption.
      + change (32 / 8) with 4 in E2. lads HV HV assumption.
      + change (64 / 8) with 8 in E2. change (128 / 64) with 2 in *.
        assert (O1 : stored 64 128 (fun i => i <? n) a p m (if n =? 1 then st_el 64 p (lane 64 0 a) m else Ok m)).
        { eapply (one_of_two (fun i => i <? n) p a m n 0); auto; [lia| |replace (p + 0 * 8) with p by lia; reflexivity].
          assert (n = 0 \/ n = 1) as [-> | ->] by lia; apply in2; reflexivity. }
        assert (O2 : stored 64 128 (fun i => i <? n) a p m (if n =? 1 then mm_store_sd p a m else Ok m)).
        { pose proof (store_sd_el p a m 0 Hp) as X. replace (p + 0 * 8) with p in X by lia. rewrite X. exact O1. }
        unfold vst1q_lane. lads HV HV assumption.
      + change (32 / 8) with 4 in E2. change (128 / 32) with 4 in *.
        pose proof (neon_first p a m n Hp Hacc Hn) as E3.
        assert (E4 : stored 32 128 (fun i => i <? n) a p m
          (let* b := i_load A F32 R128 p m in let* b := f_blend A false R128 a b (ones_zeros 32 R128 (4 - n)) in i_store A F32 R128 p b m)).
        { apply (f32_blend_stored (fun i => i <? n)); auto. apply (ones_zeros_tfv 32 R128). reflexivity. }
        unfold use_neon_no_flt_sp. lads HV HV assumption.
      + change (64 / 8) with 8 in E2. change (128 / 64) with 2 in *.
        assert (O1 : stored 64 128 (fun i => i <? n) a p m (if n =? 1 then st_el 64 p (lane 64 0 a) m else Ok m)).
        { eapply (one_of_two (fun i => i <? n) p a m n 0); auto; [lia| |replace (p + 0 * 8) with p by lia; reflexivity].
          assert (n = 0 \/ n = 1) as [-> | ->] by lia; apply in2; reflexivity. }
        assert (O2 : stored 64 128 (fun i => i <? n) a p m (if n =? 1 then mm_store_sd p a m else Ok m)).
        { pose proof (store_sd_el p a m 0 Hp) as X. replace (p + 0 * 8) with p in X by lia. rewrite X. exact O1. }
        unfold use_neon64, use_neon32. lads HV HV assumption.
    - assert (A8 : avail_int A 8 R256 = true \/ eb e <> 8 /\ eb e <> 16).
      { destruct e; cbn [eb]; auto; right; split; discriminate. }
      unfold i_store_first. cbn [rbits] in *. unfold if_wide. rewrite HA.
      destruct e; cbn [eb] in *; try exact MS.
      + apply (i_store_first8_ok R256); auto.
      + apply (first_bytes R256 16); auto.
    - unfold i_store_first. cbn [rbits] in *. unfold if_wide. rewrite HA.
      destruct e; cbn [eb] in *.
      + apply (i_store_first8_ok R512); auto.
      + apply (first_bytes R512 16); auto.
      + apply mask_store_ok; auto. intros i Hi. apply (shr_bits 16); [change 16 with (512 / 32); lia|exact Hi].
      + apply mask_store_ok; auto. intros i Hi. apply (shr_bits 8); [change 8 with (512 / 64); lia|exact Hi].
      + apply mask_store_ok; auto. intros i Hi. apply (shr_bits 16); [change 16 with (512 / 32); lia|exact Hi].
      + apply mask_store_ok; auto. intros i Hi. apply (shr_bits 8); [change 8 with (512 / 64); lia|exact Hi].
  Qed.
  Lemma i_store_last_ok e s p a n m : avail_et A e s = true -> reg (rbits s) a -> p mod (rbits s / 8) = 0 ->
    accessible m p (rbits s / 8) -> 0 <= n < rbits s / eb e ->
    stored (eb e) (rbits s) (fun i => rbits s / eb e - n <=? i) a p m (i_store_last A e s p a n m).
  Proof.
    intros HA Ha Hp Hacc Hn.
    assert (MS : stored (eb e) (rbits s) (fun i => rbits s / eb e - n <=? i) a p m
                   (mm_maskstore (eb e) (rbits s) p (zeros_ones (eb e) s n) a m)).
    { rewrite zeros_ones_tfv by (destruct e, s; reflexivity). apply maskstore_ok; auto; destruct e, s; reflexivity. }
    destruct s.
    - cbn [rbits] in *. change (128 / 8) with 16 in *.
      pose proof (null_store_last_ok (eb e) p a n m (wok128 e) (wok8e e) (aligned_16 p _ (wok128 e) (wok8e e) Hp) Hacc ltac:(lia)) as E1.
      pose proof (last_bytes R128 (eb e) p a n m (wok128 e) (wok8e e) eq_refl Ha Hp Hacc Hn) as E2.
      unfold i_store_last, assume_aligned. cbn [rbits] in *. rewrite (al16 p Hp). cbn [require].
      destruct e; cbn [eb] in *.
      + apply (i_store_last8_ok R128); auto.
      + change (16 / 8) with 2 in E2. lads HV HV assumption.
      + change (32 / 8) with 4 in E2. lads HV HV assumption.
      + change (64 / 8) with 8 in E2. change (128 / 64) with 2 in *.
        assert (O1 : stored 64 128 (fun i => 2 - n <=? i) a p m (if n =? 1 then st_el 64 (p + 8) (lane 64 1 a) m else Ok m)).
        { eapply (one_of_two (fun i => 2 - n <=? i) p a m n 1); auto; [lia|].
          assert (n = 0 \/ n = 1) as [-> | ->] by lia; apply in2; reflexivity. }
        assert (O2 : stored 64 128 (fun i => 2 - n <=? i) a p m (if n =? 1 then let* b := i_move_l A I64 R128 1 a in mm_store_sd (p + 8) b m else Ok m)).
        { rewrite (i_move_l_ok A I64 R128) by (first [assumption | reflexivity | (split; [discriminate|reflexivity])]). cbn [bind].
          pose proof (fun x => store_sd_el p x m 1 Hp) as X. change (1 * 8) with 8 in X. rewrite X.
          replace (lane 64 0 _) with (lane 64 1 a); [exact O1|]. symmetry.
          exact (lane_lsh 64 128 2 (p_move_l 2 1) [a] 0 0 eq_refl (conj (Z.le_refl 0) eq_refl) (conj (Z.le_refl 0) eq_refl)). }
        unfold vst1q_lane. lads HV HV assumption.
      + change (32 / 8) with 4 in E2. change (128 / 32) with 4 in *.
        pose proof (neon_last p a m n Hp Hacc Hn) as E3.
        assert (E4 : stored 32 128 (fun i => 4 - n <=? i) a p m
          (let* b := i_load A F32 R128 p m in let* b := f_blend A false R128 a b (zeros_ones 32 R128 n) in i_store A F32 R128 p b m)).
        { apply (f32_blend_stored (fun i => 4 - n <=? i)); auto. apply (zeros_ones_tfv 32 R128). reflexivity. }
        lads HV HV assumption.
      + change (64 / 8) with 8 in E2. change (128 / 64) with 2 in *.
        assert (O1 : stored 64 128 (fun i => 2 - n <=? i) a p m (if n =? 1 then st_el 64 (p + 8) (lane 64 1 a) m else Ok m)).
        { eapply (one_of_two (fun i => 2 - n <=? i) p a m n 1); auto; [lia|].
          assert (n = 0 \/ n = 1) as [-> | ->] by lia; apply in2; reflexivity. }
        assert (O2 : stored 64 128 (fun i => 2 - n <=? i) a p m (if n =? 1 then let* b := i_zip A F64 R128 true a a in mm_store_sd (p + 8) b m else Ok m)).
        { rewrite (i_zip_ok A F64 R128) by auto. cbn [bind].
          pose proof (fun x => store_sd_el p x m 1 Hp) as X. change (1 * 8) with 8 in X. rewrite X.
          replace (lane 64 0 _) with (lane 64 1 a); [exact O1|]. symmetry.
          exact (lane_lsh 64 128 2 (p_zip 2 true) [a; a] 0 0 eq_refl (conj (Z.le_refl 0) eq_refl) (conj (Z.le_refl 0) eq_refl)). }
        unfold use_neon64, use_neon32. lads HV HV assumption.
    - unfold i_store_last. cbn [rbits] in *. unfold if_wide. rewrite HA.
      destruct e; cbn [eb] in *; try exact MS.
      + apply (i_store_last8_ok R256); auto.
      + apply (last_bytes R256 16); auto.
    - unfold i_store_last. cbn [rbits] in *. unfold if_wide. rewrite HA.
      destruct e; cbn [eb] in *.
      + apply (i_store_last8_ok R512); auto.
      + apply (last_bytes R512 16); auto.
      + apply mask_store_ok; auto. intros i Hi. apply (shl_bits 16); [change 16 with (512 / 32); lia|exact Hi].
      + apply mask_store_ok; auto. intros i Hi. apply (shl_bits 8); [change 8 with (512 / 64); lia|exact Hi].
      + apply mask_store_ok; auto. intros i Hi. apply (shl_bits 16); [change 16 with (512 / 32); lia|exact Hi].
      + apply mask_store_ok; auto. intros i Hi. apply (shl_bits 8); [change 8 with (512 / 64); lia|exact Hi].
  Qed.
End S.
