(** reduce_mul: the ladders. *)
From Verif Require Import Spec.Reduce Model.ReduceMul Proof.CppLemmas Proof.BitwiseP Proof.ArithP Proof.ShiftP Proof.MakeConstP Proof.MoveP Proof.UnzipP Proof.ConvertP Proof.MulP Proof.MulP4 Proof.MulP5 Proof.ExtractP Proof.ExtractP2
  Proof.LoadStoreP Proof.PopcntP Proof.ReduceP Proof.ReduceP3 Proof.ReduceP5 Proof.ReduceP6 Proof.ReduceMulP Proof.ReduceMulP2.

Definition vv (sg : bool) (i a : Z) : Z := value sg 16 (lane 16 i a).
Lemma lprod16 sg a : lprod sg 16 (nl 16 128) a = vv sg 0 a * (vv sg 1 a * (vv sg 2 a * (vv sg 3 a * (vv sg 4 a * (vv sg 5 a * (vv sg 6 a * (vv sg 7 a * 1))))))).
Proof. reflexivity. Qed.
Lemma lprod32 r : lprod false 32 (nl 32 128) r = lane 32 0 r * (lane 32 1 r * (lane 32 2 r * (lane 32 3 r * 1))).
Proof. reflexivity. Qed.
Lemma cg_prod4 a b c d a' b' c' d' : cg 32 a a' -> cg 32 b b' -> cg 32 c c' -> cg 32 d d' -> cg 32 (a * (b * (c * (d * 1)))) (a' * (b' * (c' * (d' * 1)))).
Proof. intros. repeat (apply cg_mul; [lia|assumption|]). apply cg_refl. Qed.

Section L.
  Variables (A : arch) (fp : Z).
  Hypotheses (HV : valid_arch A = true) (Hfp : fp mod 64 = 0).
  Lemma neon_mull_ok sg a : reg 128 (neon_mull sg a) /\ cg 32 (lprod false 32 (nl 32 128) (neon_mull sg a)) (lprod sg 16 (nl 16 128) a).
  Proof.
    split; [unfold neon_mull; destruct sg; apply pack_reg; reflexivity|].
    assert (L : forall i, 0 <= i < 4 -> cg 32 (lane 32 i (neon_mull sg a)) (vv sg i a * vv sg (4 + i) a)).
    { intros i Hi. unfold neon_mull. destruct sg; unfold vmull_s, vmull_u; change (16 * 2) with 32; rewrite lane_pack by (try reflexivity; change (128 / 32) with 4; lia);
        (eapply cg_trans; [apply cg_wrap; lia|]); change (lane 64 0 a) with (lane (16 * 4) 0 a); change (lane 64 1 a) with (lane (16 * 4) 1 a); rewrite !lane_lane by lia; apply cg_refl. }
    rewrite lprod32, lprod16. eapply cg_trans; [apply cg_prod4; apply L; lia|]. change (4 + 0) with 4. change (4 + 1) with 5. change (4 + 2) with 6. change (4 + 3) with 7.
    match goal with |- cg _ ?x ?y => replace x with y by ring end. apply cg_refl.
  Qed.
  Lemma ppc_mull_ok sg a : reg 128 a -> exists r, ppc_mull A sg a = Ok r /\ reg 128 r /\ forall i, 0 <= i < 4 -> lane 32 i r = wrap 32 (vv sg (2 * i) a * vv sg (2 * i + 1) a).
  Proof.
    intros Ha. unfold ppc_mull. rewrite i_move_l_ok by (auto; change (en I16) with 8; lia). cbn [bind eb rbits]. change (en I16) with 8.
    eexists. split; [reflexivity|]. split; [destruct sg; apply pack_reg; reflexivity|]. intros i Hi.
    assert (L : lane 16 (2 * i) (lsh 16 128 8 (p_move_l 8 1) [a]) = lane 16 (2 * i + 1) a).
    { replace (2 * i) with (8 * 0 + 2 * i) at 1 by lia. rewrite lane_lsh by (try reflexivity; change (128 / (8 * 16)) with 1; lia).
      unfold p_move_l. replace (2 * i + 1 <? 8) with true by (symmetry; apply Z.ltb_lt; lia). reflexivity. }
    unfold vec_mule_s, vec_mule_u. change (16 * 2) with 32. destruct sg; rewrite lane_pack by (try reflexivity; change (128 / 32) with 4; lia);
      rewrite L; unfold vv; cbn [value]; f_equal; apply Z.mul_comm.
  Qed.
  Lemma msa_mull_ok sg a : use_msa A = true -> reg 128 a -> exists r, msa_mull A sg a = Ok r /\ reg 128 r /\ cg 32 (lprod false 32 (nl 32 128) r) (lprod sg 16 (nl 16 128) a).
  Proof.
    intros HM Ha. assert (H2 : use_avx2 A = false) by (destruct (use_avx2 A) eqn:?; auto; exfalso; vimp HV).
    destruct (ext16_pair A sg a HV H2 Ha) as (v & E & Hv & Ln & EL). unfold msa_mull. rewrite E. cbn [bind].
    destruct v as [|x [|y [|z v]]]; try discriminate Ln. inversion Hv as [|x0 v0 Hx Hv1 E1]; subst. inversion Hv1 as [|y0 v0 Hy Hv2 E2]; subst.
    change (aget [x; y] 0) with (Ok x). change (aget [x; y] 1) with (Ok y). cbn [bind].
    rewrite i_mul_lo32_ok by auto. cbn [rbits]. eexists. split; [reflexivity|]. split; [apply v2_reg; reflexivity|].
    eapply cg_trans; [apply (lprod_lo 128); reflexivity|].
    pose proof (product_lanes false 32 R128 [x; y]) as P. cbn [map product fold_right rbits] in P. rewrite Z.mul_1_r in P. rewrite P, EL. clear P.
    rewrite map_map. unfold lprod, prodn, elems. rewrite !map_map. cbn [rbits].
    assert (G : forall l, cg 32 (product (map (fun i : nat => value false 32 (s_extend sg 16 32 (lane 16 (Z.of_nat i) a))) l)) (product (map (fun i : nat => value sg 16 (lane 16 (Z.of_nat i) a)) l))).
    { induction l as [|i l IH]; [apply cg_refl|]. cbn [map product fold_right]. apply cg_mul; [lia| |exact IH].
      eapply cg_trans; [apply cg_value; lia|]. unfold s_extend. destruct sg; cbn [value]; [apply (cg_wrap 32 32); lia|apply cg_refl]. }
    apply G.
  Qed.

  (** loops *)
  Lemma gatherM R psi T h : (forall a r, reg R a -> reg R r -> exists r', h a r = Ok r' /\ reg R r' /\ cg 32 (psi r') (psi r * T a)) ->
    forall va r, Forall (reg R) va -> reg R r -> exists r', gather h r va = Ok r' /\ reg R r' /\ cg 32 (psi r') (psi r * product (map T va)).
  Proof.
    intros Hh. induction va as [|a va IH]; intros r Hva Hr; cbn [gather map].
    - exists r. split; [reflexivity|]. split; [auto|]. cbn. rewrite Z.mul_1_r. apply cg_refl.
    - inversion Hva; subst. destruct (Hh a r) as (r1 & E & Hr1 & C); auto. rewrite E. cbn [bind]. destruct (IH r1) as (r2 & E2 & Hr2 & C2); auto.
      exists r2. split; [exact E2|]. split; [auto|]. eapply cg_trans; [exact C2|]. change (product (T a :: map T va)) with (T a * product (map T va)).
      rewrite Z.mul_assoc. apply cg_mul; [lia|exact C|apply cg_refl].
  Qed.
  Lemma loop_epu s T h fin va : avail_int A 32 s = true -> wfv s va ->
    (forall a, reg (rbits s) a -> exists x, h a = Ok x /\ reg (rbits s) x /\ cg 32 (pphi (rbits s) x) (T a)) ->
    (forall r, reg (rbits s) r -> yields 32 (fin r) (pphi (rbits s) r)) ->
    yields 32 (let* one := konst A W32 s 1 in let* prod := gather (mulling s h) one va in fin prod) (product (map T va)).
  Proof.
    intros HA Hva Hh Hf. destruct (wk s) as (W1 & W2 & W3). rewrite konst_ok by (auto; lia). cbn [bind wb].
    destruct (gatherM (rbits s) (pphi (rbits s)) T (mulling s h)) with (va := va) (r := splat 32 (rbits s) 1) as (r & E & Hr & C).
    - intros a r Ha Hr. destruct (Hh a Ha) as (x & E & Hx & C). unfold mulling. rewrite E. cbn [bind]. eexists. split; [reflexivity|]. split; [apply v2_reg; auto|].
      eapply cg_trans; [apply mul_epu_phi; auto|]. apply cg_mul; [lia|apply cg_refl|exact C].
    - exact Hva.
    - apply splat_reg; auto.
    - rewrite E. cbn [bind]. eapply yields_cg; [apply Hf; auto|]. rewrite pphi_splat, Z.mul_1_l in C by auto. exact C.
  Qed.
  Lemma loop_lo T h sg va : wfv R128 va ->
    (forall a, reg 128 a -> exists x, h a = Ok x /\ reg 128 x /\ cg 32 (lprod false 32 (nl 32 128) x) (T a)) ->
    yields 32 (let* one := konst A W32 R128 1 in let* prod := gather (mulling_lo A h) one va in mul_words A fp sg prod) (product (map T va)).
  Proof.
    intros Hva Hh. rewrite konst_ok by (auto; lia). cbn [bind wb rbits].
    destruct (gatherM 128 (lprod false 32 (nl 32 128)) T (mulling_lo A h)) with (va := va) (r := splat 32 128 1) as (r & E & Hr & C).
    - intros a r Ha Hr. destruct (Hh a Ha) as (x & E & Hx & C). unfold mulling_lo. rewrite E. cbn [bind]. rewrite i_mul_lo32_ok by auto. cbn [rbits].
      eexists. split; [reflexivity|]. split; [apply v2_reg; reflexivity|].
      eapply cg_trans; [apply lprod_lo; reflexivity|]. apply cg_mul; [lia|apply cg_refl|exact C].
    - exact Hva.
    - apply splat_reg; reflexivity.
    - rewrite E. cbn [bind]. eapply yields_cg; [apply (words_ok A fp HV Hfp); auto|]. rewrite lprod_splat, Z.mul_1_l in C by reflexivity. exact C.
  Qed.
  Lemma each_u one T va : (forall a, In a va -> yields 32 (one a) (T a)) -> forall x, exists r, mul_each (ut W32) one (ut W32, x) va = Ok (ut W32, r) /\ cg 32 r (x * product (map T va)).
  Proof.
    induction va as [|a va IH]; intros H x; cbn [mul_each map].
    - exists x. split; [reflexivity|]. cbn. rewrite Z.mul_1_r. apply cg_refl.
    - destruct (H a) as (y & -> & Cy); [left; auto|]. cbn [bind].
      change (c_mul (ut W32, x) (ut W32, cconv (ut W32) y)) with (@Ok cval (ut W32, wrap 32 (wrap 32 x * wrap 32 (wrap 32 y)))). cbn [bind].
      unfold ccast. cbn [snd]. destruct (IH ltac:(intros; apply H; right; auto) (cconv (ut W32) (wrap 32 (wrap 32 x * wrap 32 (wrap 32 y))))) as (r & -> & C).
      exists r. split; [reflexivity|]. eapply cg_trans; [exact C|]. change (product (T a :: map T va)) with (T a * product (map T va)). rewrite Z.mul_assoc.
      apply cg_mul; [lia| |apply cg_refl]. eapply cg_trans; [apply (cg_wrap 32 32); lia|]. eapply cg_trans; [apply cg_wrap; lia|].
      apply cg_mul; [lia|apply cg_wrap; lia|]. eapply cg_trans; [apply cg_wrap; lia|]. eapply cg_trans; [apply cg_wrap; lia|exact Cy].
  Qed.
  Lemma ppc_multi_u one T va : va <> [] -> (forall a, In a va -> yields 32 (one a) (T a)) -> yields 32 (ppc_multi false one va) (product (map T va)).
  Proof.
    intros Hn H. unfold ppc_multi. cbn [sg2]. destruct va as [|a va]; [contradiction|]. destruct (H a) as (y & -> & Cy); [left; auto|]. cbn [bind].
    destruct (each_u one T va ltac:(intros; apply H; right; auto) (cconv (ut W32) y)) as (r & -> & C). cbn [bind snd]. eexists. split; [reflexivity|].
    eapply cg_trans; [exact C|]. cbn [map product fold_right]. apply cg_mul; [lia| |apply cg_refl]. eapply cg_trans; [apply (cg_wrap 32 32); lia|exact Cy].
  Qed.
  (** signed, no overflow: [B a] bounds what the register a contributes *)
  Lemma each_s one T (B : Z -> Z) va : (forall a, In a va -> one a = Ok (T a) /\ Z.abs (T a) <= B a /\ 1 <= B a) -> forall x,
    Z.max 1 (Z.abs x) * product (map B va) < 2 ^ 31 -> mul_each (st W32) one (st W32, x) va = Ok (st W32, x * product (map T va)).
  Proof.
    induction va as [|a va IH]; intros H x Hx; cbn [mul_each map].
    - cbn. rewrite Z.mul_1_r. reflexivity.
    - assert (PB : 1 <= product (map B va)).
      { clear - H. induction va as [|b va IH]; cbn [map product fold_right]; [lia|]. fold (product (map B va)).
        destruct (H b) as (_ & _ & ?); [right; left; auto|]. specialize (IH ltac:(intros c [->|Hc]; apply H; [left; auto|right; right; auto])). nia. }
      destruct (H a) as (Ea & Ta & Ba); [left; auto|]. rewrite Ea. cbn [bind].
      change (product (map B (a :: va))) with (B a * product (map B va)) in Hx.
      set (M := Z.max 1 (Z.abs x)) in *. assert (1 <= M /\ Z.abs x <= M) as [M1 M2] by (unfold M; lia). set (Q := product (map B va)) in *.
      assert (B a <= B a * Q) by nia. assert (B a * Q <= M * (B a * Q)) by nia. assert (M <= M * B a) by nia. assert (M * B a <= M * B a * Q) by nia.
      assert (Z.abs (x * T a) <= M * B a) by (rewrite Z.abs_mul; nia).
      assert (Z.abs (T a) < 2 ^ 31) by lia. assert (Z.abs x < 2 ^ 31) by lia.
      assert (Hp : Z.max 1 (Z.abs (x * T a)) * Q < 2 ^ 31) by (assert (Z.max 1 (Z.abs (x * T a)) <= M * B a) by lia; nia).
      assert (Z.abs (x * T a) < 2 ^ 31) by lia.
      change (st W32) with c_i32 in *. rewrite (cconv_id c_i32) by (try reflexivity; apply fits_abs; auto). rewrite mul_i32 by auto. cbn [bind].
      unfold ccast. cbn [snd]. rewrite (cconv_id c_i32) by (try reflexivity; apply fits_abs; auto).
      rewrite (IH ltac:(intros; apply H; right; auto) _ Hp). do 2 f_equal. change (product (T a :: map T va)) with (T a * product (map T va)). lia.
  Qed.
  Lemma ppc_multi_s one T (B : Z -> Z) va : va <> [] -> (forall a, In a va -> one a = Ok (T a) /\ Z.abs (T a) <= B a /\ 1 <= B a) ->
    product (map B va) < 2 ^ 31 -> ppc_multi true one va = Ok (product (map T va)).
  Proof.
    intros Hn H HB. unfold ppc_multi. cbn [sg2]. destruct va as [|a va]; [contradiction|]. destruct (H a) as (Ea & Ta & Ba); [left; auto|]. rewrite Ea. cbn [bind].
    change (product (map B (a :: va))) with (B a * product (map B va)) in HB.
    assert (PB : 1 <= product (map B va)).
    { clear - H. induction va as [|b va IH]; cbn [map product fold_right]; [lia|]. fold (product (map B va)).
      destruct (H b) as (_ & _ & ?); [right; left; auto|]. specialize (IH ltac:(intros c [->|Hc]; apply H; [left; auto|right; right; auto])). nia. }
    assert (Z.abs (T a) < 2 ^ 31) by nia. change (st W32) with c_i32. rewrite (cconv_id c_i32) by (try reflexivity; apply fits_abs; auto).
    change c_i32 with (st W32). rewrite (each_s one T B va) by (try (intros; apply H; right; auto); nia). reflexivity.
  Qed.
End L.
