(** reduce_add of 8 and 16-bit elements: the ladders. *)
From Verif Require Import Spec.Reduce Model.ReduceAdd Proof.CppLemmas Proof.BitwiseP Proof.ArithP Proof.ShiftP Proof.SetSplatP Proof.CmpP
  Proof.MinMaxP Proof.MoveP Proof.ExtractP2 Proof.SplitP Proof.MakeConstP Proof.LoadStoreP4 Proof.PopcntP Proof.PopcntP3 Proof.ReduceP Proof.ReduceP3 Proof.ReduceP4 Proof.ReduceP5.

Section L.
  Variables (A : arch) (fp : Z).
  Hypotheses (HV : valid_arch A = true) (Hfp : fp mod 16 = 0).
  Lemma gather_fin W R psi T h fin va : 0 <= W -> 0 <= R ->
    (forall a r, reg R a -> reg R r -> exists r', h a r = Ok r' /\ reg R r' /\ cg W (psi r') (psi r + T a)) ->
    (forall r, reg R r -> yields W (fin r) (psi r)) -> psi 0 = 0 -> Forall (reg R) va ->
    yields W (let* r := gather h 0 va in fin r) (total (map T va)).
  Proof.
    intros HW HR Hh Hf H0 Hva. destruct (gather_ok W R psi T h HW Hh va 0 Hva ltac:(apply reg0; auto)) as (r & E & Hr & C).
    rewrite E. cbn [bind]. eapply yields_cg; [apply Hf; auto|]. rewrite H0, Z.add_0_l in C. exact C.
  Qed.
  (** sums of lanes of W bits, and of the low W bits of the 64-bit lanes *)
  Lemma gather_lsum w s sg h T va fin : avail_int A (wb w) s = true -> wfv s va ->
    (forall a, reg (rbits s) a -> exists x, h a = Ok x /\ cg (wb w) (lsum sg (wb w) (nl (wb w) (rbits s)) x) (T a)) ->
    (forall r, reg (rbits s) r -> yields (wb w) (fin r) (lsum sg (wb w) (nl (wb w) (rbits s)) r)) ->
    yields (wb w) (let* r := gather (adding A w s h) 0 va in fin r) (total (map T va)).
  Proof.
    intros HA Hva Hh Hf. assert (0 < wb w) by (destruct w; reflexivity). assert (HW : wok (wb w) (rbits s) = true) by (destruct w, s; reflexivity).
    apply (gather_fin (wb w) (rbits s) (fun r => lsum sg (wb w) (nl (wb w) (rbits s)) r)); auto; try (apply lsum_0; lia); try lia; try (destruct s; cbn; lia).
    apply (adding_ok A HV w s (wb w) (fun r => lsum sg (wb w) (nl (wb w) (rbits s)) r)); auto; try lia. intros. apply lsum_add; auto. lia.
  Qed.
  Lemma gather_phi w s h T va fin : avail_int A (wb w) s = true -> wfv s va -> wb w <= 64 -> wb w * (64 / wb w) = 64 ->
    (forall a, reg (rbits s) a -> exists x, h a = Ok x /\ cg (wb w) (phi (wb w) (rbits s) x) (T a)) ->
    (forall r, reg (rbits s) r -> yields (wb w) (fin r) (phi (wb w) (rbits s) r)) ->
    yields (wb w) (let* r := gather (adding A w s h) 0 va in fin r) (total (map T va)).
  Proof.
    intros HA Hva H64 E64 Hh Hf. assert (0 < wb w) by (destruct w; reflexivity). assert (HW : wok (wb w) (rbits s) = true) by (destruct w, s; reflexivity).
    assert (wok 64 (rbits s) = true) by (destruct s; reflexivity).
    apply (gather_fin (wb w) (rbits s) (fun r => phi (wb w) (rbits s) r)); auto; try apply phi_0; try lia; try (destruct s; cbn; lia).
    apply (adding_ok A HV w s (wb w) (fun r => phi (wb w) (rbits s) r)); auto; try lia. intros. apply phi_add; auto. 
  Qed.
  (** the AVX2 tail of the 8-bit sums *)
  Lemma phi_halves r : cg 16 (phi 16 128 (v2 16 128 Z.add (lane 128 0 r) (lane 128 1 r))) (phi 16 256 r).
  Proof.
    eapply cg_trans; [apply phi_add; reflexivity || (split; reflexivity || discriminate)|].
    change (phi 16 128 (lane 128 0 r)) with (lane 16 0 (lane (16 * 8) 0 r) + (lane 16 4 (lane (16 * 8) 0 r) + 0)).
    change (phi 16 128 (lane 128 1 r)) with (lane 16 0 (lane (16 * 8) 1 r) + (lane 16 4 (lane (16 * 8) 1 r) + 0)).
    rewrite !lane_lane by lia.
    change (phi 16 256 r) with (lane 16 0 r + (lane 16 4 r + (lane 16 8 r + (lane 16 12 r + 0)))).
    change (0 * 8 + 0) with 0. change (0 * 8 + 4) with 4. change (1 * 8 + 0) with 8. change (1 * 8 + 4) with 12.
    replace (lane 16 0 r + (lane 16 4 r + 0) + (lane 16 8 r + (lane 16 12 r + 0))) with (lane 16 0 r + (lane 16 4 r + (lane 16 8 r + (lane 16 12 r + 0)))) by lia.
    apply cg_refl.
  Qed.
  Lemma tail256 r : yields 16 (let* rl := i_add A W16 R128 (mm_extract128 0 r) (mm_extract128 1 r) in lanes04 A fp false rl) (phi 16 256 r).
  Proof.
    rewrite i_add_ok by auto. cbn [bind wb rbits]. eapply yields_cg; [apply lanes04_ok; auto; apply v2_reg; reflexivity|]. apply phi_halves.
  Qed.
  Lemma reg_any s a : reg (rbits s) a -> reg (rbits s) a. Proof. auto. Qed.
  Lemma fast_bw w : use_avx512bw A = true -> fast_int A w = R512.
  Proof. intros H. unfold fast_int. rewrite H. reflexivity. Qed.
  Lemma fast_avx2 : use_avx512bw A = false -> use_avx2 A = true -> fast_int A 8 = R256 /\ fast_int A 16 = R256.
  Proof. intros H1 H2. unfold fast_int. rewrite H1, H2. destruct (use_avx512f A); auto. Qed.
  Lemma fast_128 w : use_avx2 A = false -> fast_int A w = R128.
  Proof.
    intros H2. unfold fast_int. rewrite H2. destruct (use_avx512bw A) eqn:E; [exfalso; vimp HV|]. destruct (use_avx512f A) eqn:E2; [exfalso; vimp HV|reflexivity].
  Qed.
  Lemma none_left : use_null A = false -> use_sse2 A = false -> use_neon A = false -> use_altivec A = false -> use_msa A = false -> False.
  Proof. intros. fam HV; fcontra. Qed.

  (** ---------- uint8 ---------- *)
  Lemma u8_128 a : reg 128 a -> yields 16 (red_add_u8_128 A fp a) (lsum false 8 (nl 8 128) a).
  Proof.
    intros Ha. unfold red_add_u8_128. destruct (use_null A) eqn:E0.
    { apply (null_one c_u16 c_u8 a); try reflexivity; [vm_compute; lia| |].
      - intros x _. split; [apply cconv_fits; reflexivity|apply cg_cconv; cbn; lia].
      - apply add_step; auto. }
    destruct (use_xop A).
    { eapply yields_cg; [apply lanes04_ok; auto; apply pack_reg; reflexivity|]. apply addl_phi; try reflexivity; lia. }
    destruct (use_sse2 A) eqn:E1.
    { eapply yields_cg; [apply lanes04_ok; auto; apply pack_reg; reflexivity|]. apply sad_phi; reflexivity. }
    destruct (use_neon A) eqn:E2.
    { eapply yields_cg; [apply neon_fin8_ok; lia|]. apply (addl_ok 16 false false 8 2 128); try reflexivity; lia. }
    destruct (use_altivec A) eqn:E3.
    { destruct (all_words_ok A fp HV Hfp false false (vec_sum4s false 8 a 0)) as (x & E & C); [apply pack_reg; reflexivity|].
      exists x. split; [exact E|]. rewrite sum4s_one in C by auto. apply (cg_low 16 32); [lia|exact C]. }
    destruct (use_msa A) eqn:E4; [|exfalso; apply none_left; auto].
    eapply yields_cg; [apply msa_fin8_ok; auto; lia|]. apply (hadd_ok 16 false false 8); try reflexivity; lia.
  Qed.
  Lemma u8_one s a : avail_int A 8 s = true -> reg (rbits s) a -> yields 16 (red_add_u8_one A fp s a) (lsum false 8 (nl 8 (rbits s)) a).
  Proof.
    intros HA Ha. destruct s; cbn [red_add_u8_one rbits] in *.
    - apply u8_128; auto.
    - cbn in HA. rewrite HA. eapply yields_cg; [apply tail256|]. apply sad_phi; reflexivity.
    - cbn in HA. rewrite HA. assert (use_avx512f A = true) by (destruct (use_avx512f A) eqn:?; auto; exfalso; vimp HV).
      rewrite red_add1_ok; auto.
      + eexists. split; [reflexivity|]. apply (cg_low 16 64); [lia|]. eapply cg_trans; [apply cg_wrap; cbn; lia|]. apply (sad_64 512); reflexivity.
      + apply pack_reg; reflexivity.
  Qed.
  Definition short (va : vec) : Prop := use_null A = true \/ use_altivec A = true -> Z.of_nat (length va) < 2 ^ 13.
  Lemma u8_multi s va : s = fast_int A 8 -> use_avx512bw A = false -> wfv s va -> short va ->
    yields 16 (red_add_u8_multi A fp s va) (total (map (value false 8) (lanes 8 s va))).
  Proof.
    intros Hs Hbw Hva Hsh. unfold red_add_u8_multi. destruct (use_null A) eqn:E0.
    { assert (s = R128) as -> by (rewrite Hs; apply fast_128; destruct (use_avx2 A) eqn:?; auto; exfalso; vimp HV).
      apply (null_many c_u16 c_u8 va); try reflexivity. apply add_step; auto. }
    rewrite Hbw. rewrite <- total_lanes. destruct (use_avx2 A) eqn:E2.
    { destruct (fast_avx2 Hbw E2) as [F _]. rewrite F in Hs. subst s.
      apply (gather_phi W16 R256); auto; [discriminate| |].
      - intros a Ha. eexists. split; [reflexivity|]. apply (sad_phi 256); reflexivity.
      - intros r Hr. apply tail256. }
    rewrite (fast_128 8 E2) in Hs. subst s. destruct (use_sse2 A) eqn:E3.
    { apply (gather_phi W16 R128); auto; [discriminate| |].
      - intros a Ha. destruct (use_xop A); (eexists; split; [reflexivity|]); [apply addl_phi; try reflexivity; cbn; lia|apply (sad_phi 128); reflexivity].
      - intros r Hr. apply lanes04_ok; auto. }
    destruct (use_neon A) eqn:E4.
    { apply (gather_lsum W16 R128 false); auto.
      - intros a Ha. eexists. split; [reflexivity|]. apply (addl_ok 16 false false 8 2 128); try reflexivity; lia.
      - intros r Hr. apply neon_fin8_ok; cbn; lia. }
    destruct (use_altivec A) eqn:E5.
    { destruct (gather_sum4s_ok false 8 va) as (r & E & Hr & S); [auto|apply Hsh; auto|]. rewrite E. cbn [bind].
      destruct (all_words_ok A fp HV Hfp false false r Hr) as (x & Ex & C). exists x. split; [exact Ex|]. rewrite S in C. apply (cg_low 16 32); [lia|exact C]. }
    destruct (use_msa A) eqn:E6; [|exfalso; apply none_left; auto].
    apply (gather_lsum W16 R128 false); auto.
    - intros a Ha. eexists. split; [reflexivity|]. apply (hadd_ok 16 false false 8); try reflexivity; lia.
    - intros r Hr. apply msa_fin8_ok; auto; cbn; lia.
  Qed.
  (** a vector of one register, or of several registers of the widest kind *)
  Definition shape (w : Z) (s : rsz) (va : vec) : Prop := length va = 1%nat \/ s = fast_int A w.
  Definition multi_ok (va : vec) : Prop := length va = 1%nat \/ use_avx512bw A = false.
  Lemma one_total sg w s a : lsum sg w (nl w (rbits s)) a = total (map (value sg w) (lanes w s [a])).
  Proof. rewrite <- total_lanes. cbn. lia. Qed.
  Lemma reduce_u8_ok s va : avail_int A 8 s = true -> wfv s va -> va <> [] -> shape 8 s va -> multi_ok va -> short va ->
    reduce_add_u8 A fp s va = Ok (wrap 16 (total (map (value false 8) (lanes 8 s va)))).
  Proof.
    intros HA Hva Hn Hsh Hm Hl. unfold reduce_add_u8.
    assert (Y : yields 16 (match va with [a] => red_add_u8_one A fp s a | _ => red_add_u8_multi A fp s va end) (total (map (value false 8) (lanes 8 s va)))).
    { destruct va as [|a [|b va]]; [contradiction| |].
      - inversion Hva; subst. rewrite <- one_total. apply u8_one; auto.
      - destruct Hsh as [H|H]; [discriminate H|]. destruct Hm as [Hm|Hm]; [discriminate Hm|]. apply u8_multi; auto. }
    destruct Y as (x & E & C). rewrite E. cbn [bind]. f_equal. exact C.
  Qed.
  (** ---------- int8 ---------- *)
  Lemma flipall_ok w s va : avail_int A (wb w) s = true -> wfv s va -> flipall A w s va = Ok (map (flipv (wb w) (rbits s)) va).
  Proof. intros HA. induction 1 as [|a va Ha Hva IH]; [reflexivity|]. cbn [flipall map]. rewrite flip_any by auto. cbn [bind]. rewrite IH. reflexivity. Qed.
  Lemma flipall_wf w s va : wfv s va -> wfv s (map (flipv (wb w) (rbits s)) va).
  Proof. induction 1; [constructor|]. constructor; [|assumption]. apply flipv_reg; first [assumption | destruct w, s; reflexivity]. Qed.
  Lemma flip_total w s va : total (map (value false (wb w)) (lanes (wb w) s (map (flipv (wb w) (rbits s)) va))) =
    total (map (value true (wb w)) (lanes (wb w) s va)) + 2 ^ (wb w - 1) * (Z.of_nat (length va) * (rbits s / wb w)).
  Proof.
    rewrite <- !total_lanes. induction va as [|a va IH]; [cbn; lia|]. cbn [map total fold_right length] in *.
    rewrite flipv_sum_s. fold (total (map (fun a => lsum false (wb w) (nl (wb w) (rbits s)) a) (map (flipv (wb w) (rbits s)) va))) in *.
    fold (total (map (fun a => lsum true (wb w) (nl (wb w) (rbits s)) a) va)) in *. nia.
  Qed.
  Lemma flip_total_u w s va : total (map (value true (wb w)) (lanes (wb w) s (map (flipv (wb w) (rbits s)) va))) =
    total (map (value false (wb w)) (lanes (wb w) s va)) - 2 ^ (wb w - 1) * (Z.of_nat (length va) * (rbits s / wb w)).
  Proof.
    rewrite <- !total_lanes. induction va as [|a va IH]; [cbn; lia|]. cbn [map total fold_right length] in *.
    rewrite (flipv_sum w s a : lsum true _ _ _ = _). fold (total (map (fun a => lsum true (wb w) (nl (wb w) (rbits s)) a) (map (flipv (wb w) (rbits s)) va))) in *.
    fold (total (map (fun a => lsum false (wb w) (nl (wb w) (rbits s)) a) va)) in *. nia.
  Qed.
  Lemma s8_flip s va : avail_int A 8 s = true -> wfv s va -> va <> [] -> shape 8 s va -> multi_ok va -> short va ->
    yields 16 (red_add_s8_flip A fp s va) (total (map (value true 8) (lanes 8 s va))).
  Proof.
    intros HA Hva Hn Hsh Hm Hl. unfold red_add_s8_flip. rewrite (flipall_ok W8) by auto. cbn [bind].
    rewrite reduce_u8_ok; auto.
    - cbn [bind wb]. eexists. split; [reflexivity|]. pose proof (flip_total W8 s va) as F. cbn [wb] in F. change (8 - 1) with 7 in F. rewrite F.
      unfold plus32. eapply cg_trans; [apply cg_wrap; lia|]. set (T := total (map (value true 8) (lanes 8 s va))). set (n := Z.of_nat (length va) * (rbits s / 8)).
      replace T with (T + 2 ^ 7 * n + - (n * 128)) at 2 by lia. apply cg_add; [lia| |apply cg_refl]. apply cg_wrap. lia.
    - apply (flipall_wf W8). auto.
    - destruct va; [contradiction|discriminate].
    - unfold shape in *. rewrite map_length. auto.
    - unfold multi_ok in *. rewrite map_length. auto.
    - unfold short in *. rewrite map_length. auto.
  Qed.
  Lemma shape1 w s (a : Z) : shape w s [a]. Proof. left. reflexivity. Qed.
  Lemma multi1 (a : Z) : multi_ok [a]. Proof. left. reflexivity. Qed.
  Lemma short1 (a : Z) : short [a]. Proof. intros _. cbn. lia. Qed.
  Lemma s8_one s a : avail_int A 8 s = true -> reg (rbits s) a -> yields 16 (red_add_s8_one A fp s a) (lsum true 8 (nl 8 (rbits s)) a).
  Proof.
    intros HA Ha.
    assert (FL : yields 16 (red_add_s8_flip A fp s [a]) (lsum true 8 (nl 8 (rbits s)) a)).
    { rewrite one_total. apply s8_flip; auto using shape1, multi1, short1; [constructor; auto; constructor|discriminate]. }
    destruct s; cbn [red_add_s8_one rbits] in *.
    - destruct (use_null A) eqn:E0.
      { apply (null_one c_i16 c_i8 a); try reflexivity; [vm_compute; lia| |].
        - intros x _. split; [apply cconv_fits; reflexivity|apply cg_cconv; cbn; lia].
        - apply add_step; auto. }
      destruct (use_xop A).
      { eapply yields_cg; [apply lanes04_ok; auto; apply pack_reg; reflexivity|]. apply addl_phi; try reflexivity; lia. }
      destruct (use_sse2 A) eqn:E1; [exact FL|].
      destruct (use_neon A) eqn:E2.
      { eapply yields_cg; [apply neon_fin8_ok; lia|]. apply (addl_ok 16 true true 8 2 128); try reflexivity; lia. }
      destruct (use_altivec A) eqn:E3.
      { destruct (all_words_ok A fp HV Hfp true true (vec_sum4s true 8 a 0)) as (x & E & C); [apply pack_reg; reflexivity|].
        exists x. split; [exact E|]. rewrite sum4s_one in C by auto. apply (cg_low 16 32); [lia|exact C]. }
      destruct (use_msa A) eqn:E4; [|exfalso; apply none_left; auto].
      eapply yields_cg; [apply msa_fin8_ok; auto; lia|]. apply (hadd_ok 16 true true 8); try reflexivity; lia.
    - cbn in HA. rewrite HA. exact FL.
    - cbn in HA. rewrite HA. exact FL.
  Qed.
  Lemma s8_multi s va : s = fast_int A 8 -> avail_int A 8 s = true -> use_avx512bw A = false -> wfv s va -> va <> [] -> short va ->
    yields 16 (red_add_s8_multi A fp s va) (total (map (value true 8) (lanes 8 s va))).
  Proof.
    intros Hs HA Hbw Hva Hn Hsh. unfold red_add_s8_multi.
    assert (FL : yields 16 (red_add_s8_flip A fp s va) (total (map (value true 8) (lanes 8 s va)))).
    { apply s8_flip; auto; [right; exact Hs|right; exact Hbw]. }
    destruct (use_null A) eqn:E0.
    { assert (s = R128) as -> by (rewrite Hs; apply fast_128; destruct (use_avx2 A) eqn:?; auto; exfalso; vimp HV).
      apply (null_many c_u16 c_i8 va); try reflexivity. apply add_step; auto. }
    rewrite Hbw. destruct (use_avx2 A) eqn:E2; cbn [orb]; [exact FL|].
    rewrite (fast_128 8 E2) in Hs. subst s. rewrite <- total_lanes in *. destruct (use_xop A) eqn:E7.
    { apply (gather_phi W16 R128); auto; [discriminate| |].
      - intros a Ha. eexists; split; [reflexivity|]. apply addl_phi; try reflexivity; cbn; lia.
      - intros r Hr. apply lanes04_ok; auto. }
    destruct (use_sse2 A) eqn:E3; [exact FL|].
    destruct (use_neon A) eqn:E4.
    { apply (gather_lsum W16 R128 true); auto.
      - intros a Ha. eexists. split; [reflexivity|]. apply (addl_ok 16 true true 8 2 128); try reflexivity; lia.
      - intros r Hr. apply neon_fin8_ok; cbn; lia. }
    destruct (use_altivec A) eqn:E5.
    { destruct (gather_sum4s_ok true 8 va) as (r & E & Hr & S); [auto|apply Hsh; auto|]. rewrite E. cbn [bind].
      destruct (all_words_ok A fp HV Hfp true true r Hr) as (x & Ex & C). exists x. split; [exact Ex|]. rewrite S in C. apply (cg_low 16 32); [lia|exact C]. }
    destruct (use_msa A) eqn:E6; [|exfalso; apply none_left; auto].
    apply (gather_lsum W16 R128 true); auto.
    - intros a Ha. eexists. split; [reflexivity|]. apply (hadd_ok 16 true true 8); try reflexivity; lia.
    - intros r Hr. apply msa_fin8_ok; auto; cbn; lia.
  Qed.
  Lemma reduce_s8_ok s va : avail_int A 8 s = true -> wfv s va -> va <> [] -> shape 8 s va -> multi_ok va -> short va ->
    reduce_add_s8 A fp s va = Ok (sgn 16 (total (map (value true 8) (lanes 8 s va)))).
  Proof.
    intros HA Hva Hn Hsh Hm Hl. unfold reduce_add_s8.
    assert (Y : yields 16 (match va with [a] => red_add_s8_one A fp s a | _ => red_add_s8_multi A fp s va end) (total (map (value true 8) (lanes 8 s va)))).
    { destruct va as [|a [|b va]]; [contradiction| |].
      - inversion Hva; subst. rewrite <- one_total. apply s8_one; auto.
      - destruct Hsh as [H|H]; [discriminate H|]. destruct Hm as [Hm|Hm]; [discriminate Hm|]. apply s8_multi; auto. }
    destruct Y as (x & E & C). rewrite E. cbn [bind]. f_equal. apply (cconv_cg c_i16); auto. reflexivity.
  Qed.
End L.
