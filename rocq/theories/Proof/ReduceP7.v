(** reduce_add of 16-bit elements: the ladders. *)
From Verif Require Import Spec.Reduce Model.ReduceAdd Proof.CppLemmas Proof.BitwiseP Proof.ArithP Proof.ShiftP Proof.SetSplatP Proof.CmpP
  Proof.MinMaxP Proof.MoveP Proof.ExtractP2 Proof.SplitP Proof.MakeConstP Proof.LoadStoreP4 Proof.PopcntP Proof.PopcntP3 Proof.ReduceP Proof.ReduceP3 Proof.ReduceP4 Proof.ReduceP5 Proof.ReduceP6.

Section L.
  Variables (A : arch) (fp : Z).
  Hypotheses (HV : valid_arch A = true) (Hfp : fp mod 16 = 0).
  Lemma av32 s : avail_int A 16 s = true -> avail_int A 32 s = true.
  Proof. destruct s; cbn; auto. intros H. destruct (use_avx512f A) eqn:?; auto; exfalso; vimp HV. Qed.
  Lemma wide16 s (x : res Z) : avail_int A 16 s = true -> if_wide A I16 s x = x.
  Proof. intros H. unfold if_wide. change (avail_et A I16 s) with (avail_int A 16 s). rewrite H. reflexivity. Qed.
  Lemma w1632 s : wok 16 (rbits s) = true /\ wok 32 (rbits s) = true. Proof. destruct s; split; reflexivity. Qed.
  Lemma madd1_ok s a : avail_int A 16 s = true -> reg (rbits s) a ->
    exists x, madd1 A s a = Ok x /\ reg (rbits s) x /\ cg 32 (lsum false 32 (nl 32 (rbits s)) x) (lsum true 16 (nl 16 (rbits s)) a).
  Proof.
    intros HA Ha. unfold madd1. rewrite konst_ok by (auto; lia). cbn [bind wb]. eexists. split; [reflexivity|]. destruct (w1632 s).
    split; [apply pack_reg; auto|]. apply madd_ones; auto.
  Qed.
  Lemma madd_flip_ok s a : avail_int A 16 s = true -> reg (rbits s) a ->
    exists x, madd_flip A s a = Ok x /\ reg (rbits s) x /\ cg 32 (lsum false 32 (nl 32 (rbits s)) x) (lsum true 16 (nl 16 (rbits s)) (flipv 16 (rbits s) a)).
  Proof.
    intros HA Ha. unfold madd_flip. rewrite konst_ok by (auto; lia). cbn [bind wb]. rewrite (flip_any A HV W16) by auto. cbn [bind wb]. eexists. split; [reflexivity|]. destruct (w1632 s).
    split; [apply pack_reg; auto|]. apply madd_ones; auto.
  Qed.
  Lemma red32 s x T : avail_int A 16 s = true -> reg (rbits s) x -> cg 32 (lsum false 32 (nl 32 (rbits s)) x) T ->
    yields 32 (red_add1 A fp W32 s x) T.
  Proof.
    intros HA Hx C. rewrite red_add1_ok by (auto; apply av32; auto). eexists. split; [reflexivity|]. eapply cg_trans; [apply cg_wrap; cbn; lia|]. exact C.
  Qed.
  (** the sum of the flipped lanes, plus the bias *)
  Definition ftotal (s : rsz) (va : vec) : Z := total (map (fun a => lsum true 16 (nl 16 (rbits s)) (flipv 16 (rbits s) a)) va).
  Lemma ftotal_bias s va : ftotal s va + bias16 s va = total (map (value false 16) (lanes 16 s va)).
  Proof.
    unfold ftotal, bias16. rewrite <- total_lanes. induction va as [|a va IH]; [cbn; lia|]. cbn [map total fold_right length] in *.
    pose proof (flipv_sum W16 s a) as F. cbn [wb negb] in F. change (16 - 1) with 15 in F. change (2 ^ 15) with 32768 in F. rewrite F.
    fold (total (map (fun a => lsum true 16 (nl 16 (rbits s)) (flipv 16 (rbits s) a)) va)) in *.
    fold (total (map (fun a => lsum false 16 (nl 16 (rbits s)) a) va)) in *. nia.
  Qed.
  Lemma plus_bias s va m : yields 32 m (ftotal s va) -> yields 32 (let* r := m in Ok (plus32 r (bias16 s va))) (total (map (value false 16) (lanes 16 s va))).
  Proof.
    intros (x & E & C). rewrite E. cbn [bind]. eexists. split; [reflexivity|]. unfold plus32. eapply cg_trans; [apply cg_wrap; lia|].
    rewrite <- ftotal_bias. apply cg_add; [lia|exact C|apply cg_refl].
  Qed.
  Lemma ftotal1 s a : ftotal s [a] = lsum true 16 (nl 16 (rbits s)) (flipv 16 (rbits s) a). Proof. unfold ftotal. cbn [map total fold_right]. lia. Qed.
  Lemma sum4_flip va : wfv R128 va -> (use_altivec A = true) ->
    gather (fun a r => let* ca := flip A W16 R128 a in Ok (vec_sum4s true 16 ca r)) 0 va =
    gather (fun a r => Ok (vec_sum4s true 16 a r)) 0 (map (flipv 16 128) va).
  Proof.
    intros Hva _. generalize 0. induction Hva as [|a va Ha Hva IH]; intros r; [reflexivity|]. cbn [gather map]. rewrite (flip_any A HV W16) by auto. cbn [bind wb rbits]. apply IH.
  Qed.

  (** ---------- uint16 ---------- *)
  Lemma u16_one s a : avail_int A 16 s = true -> reg (rbits s) a -> yields 32 (red_add_u16_one A fp s a) (lsum false 16 (nl 16 (rbits s)) a).
  Proof.
    intros HA Ha. destruct (madd_flip_ok s a HA Ha) as (m & Em & Hm & Cm).
    assert (WD : yields 32 (if_wide A I16 s (let* sum := madd_flip A s a in let* r := red_add1 A fp W32 s sum in Ok (plus32 r (bias16 s [a])))) (lsum false 16 (nl 16 (rbits s)) a)).
    { rewrite wide16 by auto. rewrite Em. cbn [bind]. rewrite one_total. apply plus_bias. rewrite ftotal1. apply red32; auto. }
    destruct s; unfold red_add_u16_one; [|exact WD..]. cbn [rbits] in *.
    destruct (use_null A) eqn:E0.
    { apply (null_one c_u32 c_u16 a); try reflexivity; [vm_compute; lia| |].
      - intros x _. split; [apply cconv_fits; reflexivity|apply cg_cconv; cbn; lia].
      - apply add_step_u32. }
    destruct (use_xop A).
    { eapply yields_cg; [apply low_words_ok; auto; apply pack_reg; reflexivity|]. apply addl_phi; try reflexivity; lia. }
    destruct (use_sse2 A) eqn:E1.
    { rewrite Em. cbn [bind]. change (lsum false 16 (nl 16 128) a) with (lsum false 16 (nl 16 (rbits R128)) a). rewrite one_total. apply plus_bias. rewrite ftotal1.
      eapply yields_cg; [apply (all_words_ok A fp HV Hfp false false); auto|]. exact Cm. }
    destruct (use_neon A) eqn:E2.
    { eapply yields_cg; [apply neon_fin16_ok; lia|]. apply (addl_ok 32 false false 16 2 128); try reflexivity; lia. }
    destruct (use_altivec A) eqn:E3.
    { rewrite (flip_any A HV W16) by auto. cbn [bind wb rbits]. change (lsum false 16 (nl 16 128) a) with (lsum false 16 (nl 16 (rbits R128)) a). rewrite one_total. apply plus_bias. rewrite ftotal1.
      eapply yields_cg; [apply (all_words_ok A fp HV Hfp true true); apply pack_reg; reflexivity|]. rewrite sum4s_one by auto. apply cg_refl. }
    destruct (use_msa A) eqn:E4; [|exfalso; apply none_left with A; auto].
    eapply yields_cg; [apply msa_fin16_ok; auto; lia|]. apply (hadd_ok 32 false false 16); try reflexivity; lia.
  Qed.
  Lemma add32_gather s h T va fin : avail_int A 16 s = true -> wfv s va ->
    (forall a, reg (rbits s) a -> exists x, h a = Ok x /\ cg 32 (lsum false 32 (nl 32 (rbits s)) x) (T a)) ->
    (forall r, reg (rbits s) r -> yields 32 (fin r) (lsum false 32 (nl 32 (rbits s)) r)) ->
    yields 32 (let* r := gather (adding A W32 s h) 0 va in fin r) (total (map T va)).
  Proof. intros HA Hva H1 H2. apply (gather_lsum A HV W32 s false); auto. apply av32; auto. Qed.
  Lemma bindA (m : res Z) (f g : Z -> res Z) : (let* x := m in let* y := f x in g y) = (let* y := (let* x := m in f x) in g y).
  Proof. destruct m; reflexivity. Qed.
  Lemma u16_multi s va : s = fast_int A 16 -> avail_int A 16 s = true -> wfv s va -> short A va ->
    yields 32 (red_add_u16_multi A fp s va) (total (map (value false 16) (lanes 16 s va))).
  Proof.
    intros Hs HA Hva Hsh. unfold red_add_u16_multi. destruct (use_null A) eqn:E0.
    { assert (s = R128) as -> by (rewrite Hs; apply fast_128; auto; destruct (use_avx2 A) eqn:?; auto; exfalso; vimp HV).
      apply (null_many c_u32 c_u16 va); try reflexivity. apply add_step_u32. }
    assert (MF : forall fin, (forall r, reg (rbits s) r -> yields 32 (fin r) (lsum false 32 (nl 32 (rbits s)) r)) ->
      yields 32 (let* sum := gather (adding A W32 s (madd_flip A s)) 0 va in fin sum) (ftotal s va)).
    { intros fin Hf. apply add32_gather; auto. intros a Ha. destruct (madd_flip_ok s a HA Ha) as (x & E & _ & C). exists x. auto. }
    destruct (use_avx512bw A || use_avx2 A) eqn:E2.
    { rewrite wide16 by auto. rewrite bindA. apply plus_bias. apply MF. intros r Hr. apply red32; auto. apply cg_refl. }
    apply orb_false_iff in E2 as [_ E2]. rewrite (fast_128 A HV 16 E2) in Hs. subst s. cbn [rbits] in *.
    destruct (use_xop A) eqn:E7.
    { rewrite <- total_lanes. apply (gather_phi A HV W32 R128); auto; [discriminate| |].
      - intros a Ha. eexists; split; [reflexivity|]. apply addl_phi; try reflexivity; cbn; lia.
      - intros r Hr. apply low_words_ok; auto. }
    destruct (use_sse2 A) eqn:E3.
    { rewrite bindA. apply plus_bias. apply MF. intros r Hr. apply (all_words_ok A fp HV Hfp false false); auto. }
    destruct (use_neon A) eqn:E4.
    { rewrite <- total_lanes. apply (add32_gather R128); auto.
      - intros a Ha. eexists. split; [reflexivity|]. apply (addl_ok 32 false false 16 2 128); try reflexivity; lia.
      - intros r Hr. apply neon_fin16_ok; cbn; lia. }
    destruct (use_altivec A) eqn:E5.
    { rewrite bindA. apply plus_bias. rewrite sum4_flip by auto.
      destruct (gather_sum4s_ok true 16 (map (flipv 16 128) va)) as (r & E & Hr & S); [auto|rewrite map_length; apply Hsh; auto|]. rewrite E. cbn [bind].
      destruct (all_words_ok A fp HV Hfp true true r Hr) as (x & Ex & C). exists x. split; [exact Ex|]. rewrite S, map_map in C. exact C. }
    destruct (use_msa A) eqn:E6; [|exfalso; apply none_left with A; auto].
    rewrite <- total_lanes. apply (add32_gather R128); auto.
    - intros a Ha. eexists. split; [reflexivity|]. apply (hadd_ok 32 false false 16); try reflexivity; lia.
    - intros r Hr. apply msa_fin16_ok; auto; cbn; lia.
  Qed.
  Lemma reduce_u16_ok s va : avail_int A 16 s = true -> wfv s va -> va <> [] -> shape A 16 s va -> short A va ->
    reduce_add_u16 A fp s va = Ok (wrap 32 (total (map (value false 16) (lanes 16 s va)))).
  Proof.
    intros HA Hva Hn Hsh Hl. unfold reduce_add_u16.
    assert (Y : yields 32 (match va with [a] => red_add_u16_one A fp s a | _ => red_add_u16_multi A fp s va end) (total (map (value false 16) (lanes 16 s va)))).
    { destruct va as [|a [|b va]]; [contradiction| |].
      - inversion Hva; subst. rewrite <- one_total. apply u16_one; auto.
      - destruct Hsh as [H|H]; [discriminate H|]. apply u16_multi; auto. }
    destruct Y as (x & E & C). rewrite E. cbn [bind]. f_equal. exact C.
  Qed.

  (** ---------- int16 ---------- *)
  Lemma s16_one s a : avail_int A 16 s = true -> reg (rbits s) a -> yields 32 (red_add_s16_one A fp s a) (lsum true 16 (nl 16 (rbits s)) a).
  Proof.
    intros HA Ha. destruct (madd1_ok s a HA Ha) as (m & Em & Hm & Cm).
    assert (WD : yields 32 (if_wide A I16 s (let* sum := madd1 A s a in red_add1 A fp W32 s sum)) (lsum true 16 (nl 16 (rbits s)) a)).
    { rewrite wide16 by auto. rewrite Em. cbn [bind]. apply red32; auto. }
    destruct s; unfold red_add_s16_one; [|exact WD..]. cbn [rbits] in *.
    destruct (use_null A) eqn:E0; [apply null_one_s16|].
    destruct (use_xop A).
    { eapply yields_cg; [apply low_words_ok; auto; apply pack_reg; reflexivity|]. apply addl_phi; try reflexivity; lia. }
    destruct (use_sse2 A) eqn:E1.
    { rewrite Em. cbn [bind]. apply (red32 R128); auto. }
    destruct (use_neon A) eqn:E2.
    { eapply yields_cg; [apply neon_fin16_ok; lia|]. apply (addl_ok 32 true true 16 2 128); try reflexivity; lia. }
    destruct (use_altivec A) eqn:E3.
    { eapply yields_cg; [apply (all_words_ok A fp HV Hfp true true); apply pack_reg; reflexivity|]. rewrite sum4s_one by auto. apply cg_refl. }
    destruct (use_msa A) eqn:E4; [|exfalso; apply none_left with A; auto].
    eapply yields_cg; [apply msa_fin16_ok; auto; lia|]. apply (hadd_ok 32 true true 16); try reflexivity; lia.
  Qed.
  Lemma lsum_flag sg sg' r : cg 32 (lsum sg 32 (nl 32 128) r) (lsum sg' 32 (nl 32 128) r).
  Proof. apply cg_sum; [lia|]. intros i Hi. eapply cg_trans; [apply cg_value; lia|]. apply cg_sym. apply cg_value; lia. Qed.
  Lemma s16_multi s va : s = fast_int A 16 -> avail_int A 16 s = true -> wfv s va -> short A va ->
    yields 32 (red_add_s16_multi A fp s va) (total (map (value true 16) (lanes 16 s va))).
  Proof.
    intros Hs HA Hva Hsh. unfold red_add_s16_multi. destruct (use_null A) eqn:E0.
    { assert (s = R128) as -> by (rewrite Hs; apply fast_128; auto; destruct (use_avx2 A) eqn:?; auto; exfalso; vimp HV).
      apply null_many_s16. apply Hsh. auto. }
    assert (MF : forall fin, (forall r, reg (rbits s) r -> yields 32 (fin r) (lsum false 32 (nl 32 (rbits s)) r)) ->
      yields 32 (let* sum := gather (adding A W32 s (madd1 A s)) 0 va in fin sum) (total (map (fun a => lsum true 16 (nl 16 (rbits s)) a) va))).
    { intros fin Hf. apply add32_gather; auto. intros a Ha. destruct (madd1_ok s a HA Ha) as (x & E & _ & C). exists x. auto. }
    rewrite <- total_lanes. destruct (use_avx512bw A || use_avx2 A) eqn:E2.
    { rewrite wide16 by auto. apply MF. intros r Hr. apply red32; auto. apply cg_refl. }
    apply orb_false_iff in E2 as [_ E2]. rewrite (fast_128 A HV 16 E2) in Hs. subst s. cbn [rbits] in *.
    destruct (use_xop A) eqn:E7.
    { apply (gather_phi A HV W32 R128); auto; [discriminate| |].
      - intros a Ha. eexists; split; [reflexivity|]. apply addl_phi; try reflexivity; cbn; lia.
      - intros r Hr. apply low_words_ok; auto. }
    destruct (use_sse2 A) eqn:E3.
    { apply MF. intros r Hr. apply (red32 R128); auto. apply cg_refl. }
    destruct (use_neon A) eqn:E4.
    { apply (add32_gather R128); auto.
      - intros a Ha. eexists. split; [reflexivity|]. apply (addl_ok 32 true false 16 2 128); try reflexivity; lia.
      - intros r Hr. apply (red32 R128); auto. apply cg_refl. }
    destruct (use_altivec A) eqn:E5.
    { destruct (gather_sum4s_ok true 16 va) as (r & E & Hr & S); [auto|apply Hsh; auto|]. rewrite E. cbn [bind].
      apply (red32 R128); auto. cbn [rbits]. rewrite <- S. apply lsum_flag. }
    destruct (use_msa A) eqn:E6; [|exfalso; apply none_left with A; auto].
    apply (gather_lsum A HV W32 R128 true); auto.
    - intros a Ha. eexists. split; [reflexivity|]. apply (hadd_ok 32 true true 16); try reflexivity; lia.
    - intros r Hr. apply msa_fin16_ok; auto; cbn; lia.
  Qed.
  Lemma reduce_s16_ok s va : avail_int A 16 s = true -> wfv s va -> va <> [] -> shape A 16 s va -> short A va ->
    reduce_add_s16 A fp s va = Ok (sgn 32 (total (map (value true 16) (lanes 16 s va)))).
  Proof.
    intros HA Hva Hn Hsh Hl. unfold reduce_add_s16.
    assert (Y : yields 32 (match va with [a] => red_add_s16_one A fp s a | _ => red_add_s16_multi A fp s va end) (total (map (value true 16) (lanes 16 s va)))).
    { destruct va as [|a [|b va]]; [contradiction| |].
      - inversion Hva; subst. rewrite <- one_total. apply s16_one; auto.
      - destruct Hsh as [H|H]; [discriminate H|]. apply s16_multi; auto. }
    destruct Y as (x & E & C). rewrite E. cbn [bind]. f_equal. apply (cconv_cg c_i32); auto. reflexivity.
  Qed.
End L.
