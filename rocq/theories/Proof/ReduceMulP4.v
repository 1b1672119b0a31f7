(** reduce_mul: the ladders, continued. *)
From Verif Require Import Spec.Reduce Model.ReduceMul Proof.CppLemmas Proof.BitwiseP Proof.ArithP Proof.ShiftP Proof.MakeConstP Proof.MoveP Proof.UnzipP Proof.ConvertP Proof.MulP Proof.MulP4 Proof.MulP5 Proof.ExtractP Proof.ExtractP2
  Proof.LoadStoreP Proof.PopcntP Proof.ReduceP Proof.ReduceP3 Proof.ReduceP5 Proof.ReduceP6 Proof.ReduceP7 Proof.ReduceMulP Proof.ReduceMulP2 Proof.ReduceMulP3.

Section L.
  Variables (A : arch) (fp : Z).
  Hypotheses (HV : valid_arch A = true) (Hfp : fp mod 64 = 0).
  Lemma then_last s m T : (exists x, m = Ok x /\ reg (rbits s) x /\ cg 32 (pphi (rbits s) x) T) ->
    forall fin, (forall r, reg (rbits s) r -> yields 32 (fin r) (pphi (rbits s) r)) -> yields 32 (let* r := m in fin r) T.
  Proof. intros (x & -> & Hx & C) fin Hf. cbn [bind]. eapply yields_cg; [apply Hf; auto|exact C]. Qed.
  Lemma mul32_128 a : reg 128 a -> yields 32 (red_mul32_128 A fp a) (lprod false 32 (nl 32 128) a).
  Proof.
    intros Ha. unfold red_mul32_128. destruct (use_null A) eqn:E0; [apply (null_mul_u c_u32); auto|].
    destruct (use_sse2 A) eqn:E1.
    { apply (then_last R128); [apply (pairs32_ok A fp HV R128); auto|]. intros; apply last_ok; auto. }
    destruct (use_neon A) eqn:E2; [apply words_ok; auto|]. destruct (use_msa A) eqn:E3; [apply words_ok; auto|]. cbn [orb].
    destruct (use_altivec A) eqn:E4; [|exfalso; apply none_left with A; auto]. apply block_u_ok; auto.
  Qed.
  Lemma mul32_256 a : use_avx2 A = true -> reg 256 a -> yields 32 (red_mul32_256 A fp a) (lprod false 32 (nl 32 256) a).
  Proof.
    intros HA Ha. unfold red_mul32_256. rewrite HA. apply (then_last R256); [apply (pairs32_ok A fp HV R256); auto|]. intros; apply last256_ok; auto.
  Qed.
  Lemma lprod_halves H a : wok 32 H = true -> lprod false 32 (nl 32 (2 * H)) a = lprod false 32 (nl 32 H) (lane H 0 a) * lprod false 32 (nl 32 H) (lane H 1 a).
  Proof.
    intros HH. pose proof (SplitP.elems_halves 32 H a HH) as E.
    assert (G : forall n x, lprod false 32 n x = product (map (value false 32) (elems 32 n x))) by (intros; unfold lprod, prodn, elems; rewrite map_map; reflexivity).
    rewrite !G, E, map_app, product_app. reflexivity.
  Qed.
  Lemma mul32_one s a : avail_int A 32 s = true -> reg (rbits s) a -> yields 32 (red_mul32_one A fp s a) (lprod false 32 (nl 32 (rbits s)) a).
  Proof.
    intros HA Ha. destruct s; cbn [red_mul32_one rbits] in *.
    - apply mul32_128; auto.
    - apply mul32_256; auto.
    - cbn in HA. rewrite HA. assert (H2 : use_avx2 A = true) by (destruct (use_avx2 A) eqn:?; auto; exfalso; vimp HV).
      rewrite i_mul_lo32_ok by (auto; apply (lane_range 256); lia). cbn [bind rbits]. eapply yields_cg; [apply mul32_256; auto; apply v2_reg; reflexivity|].
      eapply cg_trans; [apply lprod_lo; reflexivity|]. rewrite (lprod_halves 256) by reflexivity. apply cg_refl.
  Qed.
  Lemma fast32 : use_avx512f A = false -> use_avx2 A = true -> fast_int A 32 = R256.
  Proof. intros H1 H2. unfold fast_int. rewrite H1, H2. destruct (use_avx512bw A) eqn:E; auto. exfalso; vimp HV. Qed.
  Lemma mul32_multi s va : s = fast_int A 32 -> use_avx512f A = false -> wfv s va -> va <> [] ->
    yields 32 (red_mul32_multi A fp s va) (product (map (value false 32) (lanes 32 s va))).
  Proof.
    intros Hs Hf Hva Hn. unfold red_mul32_multi. destruct (use_null A) eqn:E0.
    { assert (s = R128) as -> by (rewrite Hs; apply fast_128; auto; destruct (use_avx2 A) eqn:?; auto; exfalso; vimp HV).
      apply (null_mul_many c_u32); auto. }
    rewrite <- product_lanes. rewrite Hf. destruct (use_avx2 A) eqn:E2.
    { rewrite fast32 in Hs by auto. subst s. apply (loop_epu A HV R256); auto; [|intros; apply last256_ok; auto].
      intros a Ha. apply (pairs32_ok A fp HV R256); auto. }
    rewrite (fast_128 A HV 32 E2) in Hs. subst s. cbn [rbits] in *. destruct (use_sse2 A) eqn:E1.
    { apply (loop_epu A HV R128); auto; [|intros; apply last_ok; auto]. intros a Ha. apply (pairs32_ok A fp HV R128); auto. }
    assert (LO : yields 32 (let* one := konst A W32 R128 1 in let* prod := gather (mulling_lo A (fun a => Ok a)) one va in mul_words A fp false prod)
      (product (map (fun a => lprod false 32 (nl 32 128) a) va))).
    { apply loop_lo; auto. intros a Ha. exists a. split; [reflexivity|]. split; [auto|apply cg_refl]. }
    destruct (use_neon A) eqn:E3; [exact LO|]. destruct (use_msa A) eqn:E4; [exact LO|]. cbn [orb].
    destruct (use_altivec A) eqn:E5; [|exfalso; apply none_left with A; auto].
    apply ppc_multi_u; auto. intros a Ha. apply mul32_128. unfold wfv in Hva. rewrite Forall_forall in Hva. apply Hva; auto.
  Qed.
  (** ---------- 16-bit ---------- *)
  Definition need (sg : bool) (l : list Z) : Prop := sg = true -> use_null A = true \/ use_altivec A = true -> safe l.
  Lemma mags_pairs a b c d e f g h : mags [a * b; c * d; e * f; g * h] <= mags [a; b; c; d; e; f; g; h].
  Proof.
    assert (M : forall x y, mag (x * y) <= mag x * mag y) by (intros; unfold mag; rewrite Z.abs_mul; nia). assert (P : forall x, 1 <= mag x) by (intros; unfold mag; lia).
    rewrite !mags_cons. change (mags []) with 1. rewrite !Z.mul_1_r.
    pose proof (M a b). pose proof (M c d). pose proof (M e f). pose proof (M g h).
    assert (mag (e * f) * mag (g * h) <= (mag e * mag f) * (mag g * mag h)) by (apply Z.mul_le_mono_nonneg; auto; pose proof (P (e * f)); pose proof (P (g * h)); lia).
    assert (mag (c * d) * (mag (e * f) * mag (g * h)) <= (mag c * mag d) * ((mag e * mag f) * (mag g * mag h))) by (apply Z.mul_le_mono_nonneg; auto; pose proof (P (e * f)); pose proof (P (g * h)); pose proof (P (c * d)); nia).
    assert (mag (a * b) * (mag (c * d) * (mag (e * f) * mag (g * h))) <= (mag a * mag b) * ((mag c * mag d) * ((mag e * mag f) * (mag g * mag h)))).
    { apply Z.mul_le_mono_nonneg; auto; pose proof (P (a * b)); [lia|]. pose proof (P (e * f)); pose proof (P (g * h)); pose proof (P (c * d)).
      apply Z.mul_nonneg_nonneg; [lia|]. apply Z.mul_nonneg_nonneg; lia. }
    lia.
  Qed.
  Definition els8 sg a := [vv sg 0 a; vv sg 1 a; vv sg 2 a; vv sg 3 a; vv sg 4 a; vv sg 5 a; vv sg 6 a; vv sg 7 a].
  Lemma els8_eq sg a : map (value sg 16) (lanes 16 R128 [a]) = els8 sg a. Proof. reflexivity. Qed.
  Lemma sgn_pair x y : value true 32 (wrap 32 (sgn 16 x * sgn 16 y)) = sgn 16 x * sgn 16 y.
  Proof.
    cbn [value]. rewrite sgn_wrap by lia. apply sgn_id; [lia|]. pose proof (sgn_range 16 x ltac:(lia)). pose proof (sgn_range 16 y ltac:(lia)).
    change (2 ^ (16 - 1)) with 32768 in *. change (2 ^ (32 - 1)) with 2147483648. nia.
  Qed.
  Lemma ppc_s a : safe (lanes 16 R128 [a]) -> reg 128 a -> (let* r := ppc_mull A true a in mul_block A fp true r) = Ok (lprod true 16 (nl 16 128) a).
  Proof.
    intros Hs Ha. destruct (ppc_mull_ok A HV true a Ha) as (r & E & Hr & L). rewrite E. cbn [bind].
    assert (V : forall i, 0 <= i < 4 -> value true 32 (lane 32 i r) = vv true (2 * i) a * vv true (2 * i + 1) a) by (intros i Hi; rewrite L by auto; apply sgn_pair).
    rewrite block_s_ok; auto.
    - f_equal. rewrite lprod16. change (lprod true 32 (nl 32 128) r) with (value true 32 (lane 32 0 r) * (value true 32 (lane 32 1 r) * (value true 32 (lane 32 2 r) * (value true 32 (lane 32 3 r) * 1)))).
      rewrite !V by lia. change (2 * 0) with 0. change (0 + 1) with 1. change (2 * 1) with 2. change (2 + 1) with 3. change (2 * 2) with 4. change (4 + 1) with 5. change (2 * 3) with 6. change (6 + 1) with 7. ring.
    - change (map (value true 32) (elems 32 4 r)) with [value true 32 (lane 32 0 r); value true 32 (lane 32 1 r); value true 32 (lane 32 2 r); value true 32 (lane 32 3 r)].
      rewrite !V by lia. change (2 * 0) with 0. change (0 + 1) with 1. change (2 * 1) with 2. change (2 + 1) with 3. change (2 * 2) with 4. change (4 + 1) with 5. change (2 * 3) with 6. change (6 + 1) with 7.
      eapply Z.le_lt_trans; [apply mags_pairs|]. unfold safe in Hs. rewrite els8_eq in Hs. exact Hs.
  Qed.
  Lemma mul16_128 sg a : reg 128 a -> need sg (lanes 16 R128 [a]) -> yields 32 (red_mul16_128 A fp sg a) (lprod sg 16 (nl 16 128) a).
  Proof.
    intros Ha Hs. unfold red_mul16_128. destruct (use_null A) eqn:E0.
    { destruct sg; [apply null_mul_s; apply Hs; auto|apply (null_mul_u c_u16); auto]. }
    destruct (use_sse2 A) eqn:E1.
    { destruct (pairs16_ok A HV sg R128 a eq_refl Ha) as (x & -> & Hx & C). cbn [bind rbits] in *. eapply yields_cg; [|exact C].
      apply (then_last R128); [apply (pairs32_ok A fp HV R128); auto|]. intros; apply last_ok; auto. }
    destruct (use_neon A) eqn:E2.
    { destruct (neon_mull_ok sg a) as [H1 H2]. eapply yields_cg; [apply words_ok; auto|exact H2]. }
    destruct (use_altivec A) eqn:E3.
    { destruct sg.
      - rewrite ppc_s by (auto; apply Hs; auto). eexists. split; [reflexivity|apply cg_refl].
      - destruct (ppc_mull_ok A HV false a Ha) as (r & -> & Hr & L). cbn [bind]. eapply yields_cg; [apply block_u_ok; auto|].
        apply (lprod_pairs false 16); try reflexivity. intros i Hi. cbn [value]. rewrite L by exact Hi. unfold vv. apply cg_wrap. lia. }
    destruct (use_msa A) eqn:E4; [|exfalso; apply none_left with A; auto].
    destruct (msa_mull_ok A HV sg a E4 Ha) as (r & -> & Hr & C). cbn [bind]. eapply yields_cg; [apply words_ok; auto|exact C].
  Qed.
  Lemma mul16_one sg s a : avail_int A 16 s = true -> reg (rbits s) a -> need sg (lanes 16 s [a]) -> yields 32 (red_mul16_one A fp sg s a) (lprod sg 16 (nl 16 (rbits s)) a).
  Proof.
    intros HA Ha Hs. destruct s; unfold red_mul16_one; cbn [rbits] in *.
    - apply mul16_128; auto.
    - assert (H2 : use_avx2 A = true) by exact HA. rewrite H2. destruct (pairs16_ok A HV sg R256 a HA Ha) as (x & -> & Hx & C). cbn [bind rbits] in *. eapply yields_cg; [|exact C].
      apply (then_last R256); [apply (pairs32_ok A fp HV R256); auto|]. intros; apply last256_ok; auto.
    - assert (H2 : use_avx512bw A = true) by exact HA. rewrite H2. destruct (pairs16_ok A HV sg R512 a HA Ha) as (x & -> & Hx & C). cbn [bind rbits] in *. eapply yields_cg; [|exact C].
      apply (mul32_one R512); auto. apply av32; auto.
  Qed.
  Lemma pairs_both sg s a : avail_int A 16 s = true -> reg (rbits s) a ->
    exists x, pairs16_32 A sg s a = Ok x /\ reg (rbits s) x /\ cg 32 (pphi (rbits s) x) (lprod sg 16 (nl 16 (rbits s)) a).
  Proof.
    intros HA Ha. destruct (pairs16_ok A HV sg s a HA Ha) as (x & E & Hx & C). unfold pairs16_32. rewrite E. cbn [bind].
    destruct (pairs32_ok A fp HV s x (av32 A HV s HA) Hx) as (y & E2 & Hy & C2). exists y. split; [exact E2|]. split; [auto|]. eapply cg_trans; [exact C2|exact C].
  Qed.
  Lemma safe_one a va : In a va -> safe (lanes 16 R128 va) -> safe (lanes 16 R128 [a]).
  Proof.
    unfold safe. intros Hi Hs. apply in_split in Hi as (l1 & l2 & ->). rewrite lanes_app in Hs. change (a :: l2) with ([a] ++ l2) in Hs. rewrite lanes_app, !map_app, !mags_app in Hs.
    pose proof (mags_pos (map (value true 16) (lanes 16 R128 l1))) as P1. pose proof (mags_pos (map (value true 16) (lanes 16 R128 l2))) as P2. pose proof (mags_pos (map (value true 16) (lanes 16 R128 [a]))) as P3. nia.
  Qed.
  Lemma safe_total va : product (map (fun a => mags (map (value true 16) (lanes 16 R128 [a]))) va) = mags (map (value true 16) (lanes 16 R128 va)).
  Proof.
    induction va as [|a va IH]; [reflexivity|]. change (a :: va) with ([a] ++ va) at 2. rewrite lanes_app, map_app, mags_app, <- IH. reflexivity.
  Qed.
  Lemma mul16_multi sg s va : s = fast_int A 16 -> use_avx512bw A = false -> wfv s va -> va <> [] -> need sg (lanes 16 s va) ->
    yields 32 (red_mul16_multi A fp sg s va) (product (map (value sg 16) (lanes 16 s va))).
  Proof.
    intros Hs Hf Hva Hn Hsafe. unfold red_mul16_multi. destruct (use_null A) eqn:E0.
    { assert (s = R128) as -> by (rewrite Hs; apply fast_128; auto; destruct (use_avx2 A) eqn:?; auto; exfalso; vimp HV).
      destruct sg; [apply (null_mul_many c_i16); auto|apply (null_mul_many c_u16); auto]. }
    rewrite <- product_lanes. rewrite Hf. destruct (use_avx2 A) eqn:E2.
    { destruct (fast_avx2 A Hf E2) as [_ F]. rewrite F in Hs. subst s. apply (loop_epu A HV R256); auto; [|intros; apply last256_ok; auto].
      intros a Ha. apply (pairs_both sg R256); auto. }
    rewrite (fast_128 A HV 16 E2) in Hs. subst s. cbn [rbits] in *. destruct (use_sse2 A) eqn:E1.
    { apply (loop_epu A HV R128); auto; [|intros; apply last_ok; auto]. intros a Ha. apply (pairs_both sg R128); auto. }
    destruct (use_neon A) eqn:E3.
    { apply loop_lo; auto. intros a Ha. destruct (neon_mull_ok sg a) as [H1 H2]. eexists. split; [reflexivity|]. split; auto. }
    destruct (use_altivec A) eqn:E5.
    { assert (Hr : forall a, In a va -> reg 128 a) by (intros a Ha; unfold wfv in Hva; rewrite Forall_forall in Hva; apply Hva; auto).
      destruct sg.
      - rewrite (ppc_multi_s (red_mul16_128 A fp true) (fun a => lprod true 16 (nl 16 128) a) (fun a => mags (map (value true 16) (lanes 16 R128 [a])))); auto.
        + eexists. split; [reflexivity|apply cg_refl].
        + intros a Ha. split; [|split; [|apply mags_pos]].
          * unfold red_mul16_128. rewrite E0, E1, E3, E5. apply ppc_s; auto. eapply safe_one; [exact Ha|]. apply Hsafe; auto.
          * change (nl 16 128) with (nl 16 (rbits R128)). rewrite one_product. apply mags_bound.
        + rewrite safe_total. apply Hsafe; auto.
      - apply ppc_multi_u; auto. intros a Ha. apply mul16_128; auto. intros H; discriminate H. }
    destruct (use_msa A) eqn:E4; [|exfalso; apply none_left with A; auto].
    apply loop_lo; auto. intros a Ha. apply msa_mull_ok; auto.
  Qed.
End L.
