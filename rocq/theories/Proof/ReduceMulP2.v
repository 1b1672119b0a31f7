(** reduce_mul: the last steps, the scalar code and the loops. *)
From Verif Require Import Spec.Reduce Model.ReduceMul Proof.CppLemmas Proof.BitwiseP Proof.ArithP Proof.ShiftP Proof.MakeConstP Proof.MoveP Proof.UnzipP Proof.ConvertP Proof.MulP Proof.MulP4 Proof.MulP5 Proof.ExtractP Proof.ExtractP2
  Proof.LoadStoreP Proof.PopcntP Proof.ReduceP Proof.ReduceP3 Proof.ReduceP5 Proof.ReduceP6 Proof.ReduceMulP.

(** the magnitudes: if their product is small no multiplication overflows *)
Definition mag (x : Z) : Z := Z.max 1 (Z.abs x).
Definition mags (l : list Z) : Z := product (map mag l).
Lemma mags_pos l : 1 <= mags l.
Proof. unfold mags. induction l as [|x l IH]; cbn [map product fold_right]; [lia|]. unfold mag at 1. fold (product (map mag l)). nia. Qed.
Lemma mags_cons x l : mags (x :: l) = mag x * mags l. Proof. reflexivity. Qed.
Lemma mags_app l m : mags (l ++ m) = mags l * mags m. Proof. unfold mags. rewrite map_app. apply product_app. Qed.
Lemma mags_bound l : Z.abs (product l) <= mags l.
Proof.
  induction l as [|x l IH]; [cbn; lia|]. rewrite mags_cons. change (product (x :: l)) with (x * product l). rewrite Z.abs_mul. unfold mag. pose proof (mags_pos l). nia.
Qed.
Lemma fits_abs x : Z.abs x < 2 ^ 31 -> fits c_i32 x = true.
Proof. intros. apply fits_spec. cbn [fst snd c_i32]. lia. Qed.
Lemma mul_i32 (t : cty) x y : t = c_i16 \/ t = c_i32 -> Z.abs x < 2 ^ 31 -> Z.abs y < 2 ^ 31 -> Z.abs (x * y) < 2 ^ 31 -> c_mul (c_i32, x) (t, y) = Ok (c_i32, x * y).
Proof.
  intros Ht Hx Hy Hp. unfold c_mul. rewrite (carith_gen c_i32).
  - apply cres_ok. apply fits_abs. auto.
  - destruct Ht as [-> | ->]; reflexivity.
  - reflexivity.
  - apply fits_abs; auto.
  - apply fits_abs; auto.
Qed.
Lemma accum_mul_i (t : cty) : t = c_i16 \/ t = c_i32 -> forall l x, Z.abs x * mags l < 2 ^ 31 -> Forall (fun y => fits t y = true) l ->
  accum c_i32 c_mul (c_i32, x) (map (pair t) l) = Ok (c_i32, x * product l).
Proof.
  intros Ht. induction l as [|y l IH]; intros x Hb Hl.
  - cbn. rewrite Z.mul_1_r. reflexivity.
  - inversion Hl; subst. cbn [map accum]. rewrite mags_cons in Hb. pose proof (mags_pos l). unfold mag in Hb.
    assert (Hy : Z.abs y <= 2 ^ 31 - 1 \/ x = 0) by nia.
    assert (Fy : Z.abs y < 2 ^ 31 \/ y = - 2 ^ 31).
    { match goal with H : fits t y = true |- _ => apply fits_spec in H; destruct Ht as [-> | ->]; cbn [fst snd c_i16 c_i32] in H end; lia. }
    assert (B : Z.abs (x * y) < 2 ^ 31) by (rewrite Z.abs_mul; nia).
    assert (Bx : Z.abs x < 2 ^ 31) by nia.
    assert (E : c_mul (c_i32, x) (t, y) = Ok (c_i32, x * y)).
    { unfold c_mul. rewrite (carith_gen c_i32).
      - apply cres_ok. apply fits_abs. auto.
      - destruct Ht as [-> | ->]; reflexivity.
      - reflexivity.
      - apply fits_abs; auto.
      - apply fits_spec. cbn [fst snd c_i32]. destruct Fy; lia. }
    rewrite E. cbn [bind]. unfold ccast. cbn [snd]. rewrite cconv_id by (try reflexivity; apply fits_abs; auto).
    rewrite IH; auto.
    + do 2 f_equal. change (product (y :: l)) with (y * product l). lia.
    + rewrite Z.abs_mul. nia.
Qed.
Lemma accum_mul_u (t : cty) : t = c_i16 \/ t = c_u16 \/ t = c_u32 -> forall l x, exists r, accum c_u32 c_mul (c_u32, x) (map (pair t) l) = Ok (c_u32, r) /\ cg 32 r (x * product l).
Proof.
  intros Ht. induction l as [|y l IH]; intros x.
  - exists x. split; [reflexivity|]. cbn. rewrite Z.mul_1_r. apply cg_refl.
  - cbn [map accum].
    assert (E : exists p, c_mul (c_u32, x) (t, y) = Ok (c_u32, p) /\ cg 32 p (x * y)).
    { exists (wrap 32 (wrap 32 x * wrap 32 y)). split; [destruct Ht as [-> | [-> | ->]]; reflexivity|].
      eapply cg_trans; [apply cg_wrap; lia|]. apply cg_mul; [lia|apply cg_wrap; lia|apply cg_wrap; lia]. }
    destruct E as (p & -> & C). cbn [bind]. unfold ccast. cbn [snd]. destruct (IH (cconv c_u32 p)) as (r & E & C'). exists r. split; [exact E|].
    eapply cg_trans; [exact C'|]. change (product (y :: l)) with (y * product l). rewrite Z.mul_assoc. apply cg_mul; [lia| |apply cg_refl].
    eapply cg_trans; [apply (cg_wrap 32 32); lia|exact C].
Qed.
Lemma els_prod (t : cty) R a : 0 < snd t -> (1 <= nl (snd t) R)%nat ->
  cconv t (lane (snd t) 0 a) * product (map (fun i => cconv t (lane (snd t) (Z.of_nat i) a)) (seq 1 (nl (snd t) R - 1))) = lprod (fst t) (snd t) (nl (snd t) R) a.
Proof.
  intros H Hn. unfold lprod, prodn. destruct (nl (snd t) R) as [|n]; [lia|]. cbn [seq map product fold_right]. replace (S n - 1)%nat with n by lia.
  change (Z.of_nat 0) with 0. rewrite <- cconv_value by (apply lane_range; lia). f_equal.
  unfold product. f_equal. apply map_ext. intros i. apply cconv_value. apply lane_range. lia.
Qed.
Lemma null_mul_u (t : cty) a : t = c_u16 \/ t = c_u32 -> yields 32 (null_red1 c_u32 t c_mul 1 a) (lprod (fst t) (snd t) (nl (snd t) 128) a).
Proof.
  intros Ht. unfold null_red1, el, ccast. cbn [snd]. rewrite els_val.
  destruct (accum_mul_u t ltac:(tauto) (map (fun i => cconv t (lane (snd t) (Z.of_nat i) a)) (seq 1 (nl (snd t) 128 - 1))) (cconv c_u32 (cconv t (lane (snd t) 0 a)))) as (r & E & C).
  rewrite E. cbn [bind snd]. eexists. split; [reflexivity|]. eapply cg_trans; [exact C|].
  rewrite <- els_prod by (destruct Ht as [-> | ->]; vm_compute; first [reflexivity | lia]). apply cg_mul; [lia|apply (cg_wrap 32 32); lia|apply cg_refl].
Qed.
Lemma null_mul_many (t : cty) va : t = c_i16 \/ t = c_u16 \/ t = c_u32 -> yields 32 (null_redN c_u32 t c_mul 1 va) (product (map (value (fst t) (snd t)) (lanes (snd t) R128 va))).
Proof.
  intros Ht. unfold null_redN. rewrite els_lanes' by (destruct Ht as [-> | [-> | ->]]; reflexivity).
  destruct (accum_mul_u t Ht (map (value (fst t) (snd t)) (lanes (snd t) R128 va)) 1) as (r & E & C).
  rewrite E. cbn [bind snd]. eexists. split; [reflexivity|]. rewrite Z.mul_1_l in C. exact C.
Qed.
Definition safe (l : list Z) : Prop := mags (map (value true 16) l) < 2 ^ 31.
Lemma null_mul_s a : safe (lanes 16 R128 [a]) -> yields 32 (null_red1 c_i32 c_i16 c_mul 1 a) (lprod true 16 (nl 16 128) a).
Proof.
  intros Hs. unfold null_red1, el, ccast. cbn [snd c_i16]. rewrite els_val. cbn [snd c_i16].
  assert (F : fits c_i16 (cconv c_i16 (lane 16 0 a)) = true) by (apply cconv_fits; reflexivity).
  apply fits_spec in F. cbn [fst snd c_i16] in F.
  change (cconv c_i32 (cconv (true, 16) (lane 16 0 a))) with (cconv c_i32 (cconv c_i16 (lane 16 0 a))).
  rewrite (cconv_id c_i32) by (first [reflexivity | apply fits_spec; cbn [fst snd c_i32]; lia]).
  rewrite (accum_mul_i c_i16); auto.
  - cbn [bind snd]. eexists. split; [reflexivity|]. pose proof (els_prod c_i16 128 a eq_refl ltac:(vm_compute; lia)) as E. cbn [fst snd c_i16] in E. rewrite <- E. apply cg_refl.
  - unfold safe in Hs. rewrite lanes_cons in Hs. change (lanes 16 R128 []) with (@nil Z) in Hs. rewrite app_nil_r in Hs. unfold elems in Hs.
    change (nl 16 (rbits R128)) with 8%nat in Hs. change (nl 16 128) with 8%nat. cbn [seq map] in Hs. rewrite mags_cons in Hs. cbn [Nat.sub seq map].
    change (Z.of_nat 0) with 0 in Hs.
    assert (G : forall x, cconv c_i16 (lane 16 x a) = value true 16 (lane 16 x a)) by (intros; apply (cconv_value c_i16); apply lane_range; cbn; lia).
    rewrite !G. match goal with |- _ * ?X < _ => set (q := X) in *; pose proof (mags_pos [] : 1 <= 1); assert (1 <= q) by apply mags_pos end.
    match type of Hs with _ * ?Y < _ => change Y with q in Hs end. unfold mag in Hs. nia.
  - apply (els_fits c_i16). reflexivity.
Qed.

Section L.
  Variables (A : arch) (fp : Z).
  Hypotheses (HV : valid_arch A = true) (Hfp : fp mod 64 = 0).
  Let F16 := fp16 fp Hfp.
  Lemma ext0 sg r : reg 128 r -> yields 32 (i_extract A fp sg I32 R128 0 r) (lane 32 0 r).
  Proof.
    intros Hr. assert (B : 0 <= 0 < rbits R128 / eb I32) by (split; [lia|reflexivity]).
    rewrite (i_extract_ok A fp HV R128 F16 sg I32 0 r eq_refl Hr B) by (cbn; intros; discriminate). eexists. split; [reflexivity|].
    apply cg_value. cbn. lia.
  Qed.
  Lemma last_ok r : reg 128 r -> yields 32 (mul_last A fp r) (pphi 128 r).
  Proof.
    intros Hr. destruct (move_word A HV R128 2 r eq_refl Hr ltac:(lia)) as (m & E & Hm & L). unfold mul_last. rewrite E. cbn [bind].
    eapply yields_cg; [apply ext0; apply v2_reg; reflexivity|]. pose proof (mul_epu_lane 128 r m 0 eq_refl ltac:(split; [lia|reflexivity])) as ML. change (2 * 0) with 0 in ML. rewrite ML.
    eapply cg_trans; [apply cg_wrap; lia|]. rewrite (L 0 ltac:(split; [lia|reflexivity]) ltac:(reflexivity)).
    change (pphi 128 r) with (lane 32 0 r * (lane 32 2 r * 1)). rewrite Z.mul_1_r. apply cg_refl.
  Qed.
  Lemma last256_ok r : yields 32 (mul_last256 A fp r) (pphi 256 r).
  Proof.
    unfold mul_last256. eapply yields_cg; [apply last_ok; apply v2_reg; reflexivity|]. eapply cg_trans; [apply mul_epu_phi; reflexivity|].
    unfold mm_extract128. change (pphi 128 (lane 128 0 r)) with (lane 32 0 (lane (32 * 4) 0 r) * (lane 32 2 (lane (32 * 4) 0 r) * 1)).
    change (pphi 128 (lane 128 1 r)) with (lane 32 0 (lane (32 * 4) 1 r) * (lane 32 2 (lane (32 * 4) 1 r) * 1)). rewrite !lane_lane by lia.
    change (pphi 256 r) with (lane 32 0 r * (lane 32 2 r * (lane 32 4 r * (lane 32 6 r * 1)))).
    change (0 * 4 + 0) with 0. change (0 * 4 + 2) with 2. change (1 * 4 + 0) with 4. change (1 * 4 + 2) with 6. rewrite !Z.mul_1_r, !Z.mul_assoc. apply cg_refl.
  Qed.
  Lemma words_ok sg r : reg 128 r -> yields 32 (mul_words A fp sg r) (lprod false 32 (nl 32 128) r).
  Proof.
    intros Hr. destruct (move_word A HV R128 2 r eq_refl Hr ltac:(lia)) as (m & E & Hm & L). unfold mul_words. rewrite E. cbn [bind].
    rewrite i_mul_lo32_ok by auto. cbn [bind rbits]. set (r2 := v2 32 128 Z.mul r m). assert (Hr2 : reg 128 r2) by (apply v2_reg; reflexivity).
    destruct (move_word A HV R128 1 r2 eq_refl Hr2 ltac:(lia)) as (m2 & E2 & Hm2 & L2). rewrite E2. cbn [bind].
    rewrite i_mul_lo32_ok by auto. cbn [bind rbits]. eapply yields_cg; [apply ext0; apply v2_reg; reflexivity|].
    cbn [rbits] in *. change (128 / 32) with 4 in *.
    rewrite lane_v2 by (try reflexivity; change (128 / 32) with 4; lia). rewrite (L2 0) by (try reflexivity; lia). change (0 + 1) with 1. unfold r2.
    rewrite !lane_v2 by (try reflexivity; change (128 / 32) with 4; lia). rewrite (L 0), (L 1) by (try reflexivity; lia). change (0 + 2) with 2. change (1 + 2) with 3.
    change (lprod false 32 (nl 32 128) r) with (lane 32 0 r * (lane 32 1 r * (lane 32 2 r * (lane 32 3 r * 1)))).
    eapply cg_trans; [apply cg_wrap; lia|]. eapply cg_trans; [apply cg_mul; [lia|apply cg_wrap; lia|apply cg_wrap; lia]|].
    replace (lane 32 0 r * lane 32 2 r * (lane 32 1 r * lane 32 3 r)) with (lane 32 0 r * (lane 32 1 r * (lane 32 2 r * (lane 32 3 r * 1)))) by ring. apply cg_refl.
  Qed.
  (** b[0] * b[1] * b[2] * b[3] *)
  Lemma block4 r : exists m, mem_block A fp I32 R128 r = Ok m /\ forall id, 0 <= id < 4 -> mb_get fp 32 id m = Ok (lane 32 id r).
  Proof.
    destruct (mem_block_ok A fp HV I32 R128 r eq_refl F16) as (m & E & G). exists m. split; [exact E|]. intros id Hid.
    apply (mb_get_ok fp 32 128 r m id); auto; try reflexivity. apply Z.eqb_eq. change (32 / 8) with 4.
    apply Z.mod_divide; [lia|]. pose proof F16 as H. apply Z.mod_divide in H; [|lia]. destruct H as [k ->]. exists (k * 4). lia.
  Qed.
  Lemma block_u_ok r : yields 32 (mul_block A fp false r) (lprod false 32 (nl 32 128) r).
  Proof.
    destruct (block4 r) as (m & E & G). unfold mul_block. rewrite E. cbn [bind sg2]. rewrite !G by lia. cbn [bind].
    assert (S : forall x y, exists p, c_mul (ut W32, x) (ut W32, cconv (ut W32) y) = Ok (ut W32, p) /\ cg 32 p (x * y)).
    { intros x y. exists (wrap 32 (wrap 32 x * wrap 32 (cconv (ut W32) y))). split; [reflexivity|]. eapply cg_trans; [apply cg_wrap; lia|].
      apply cg_mul; [lia|apply cg_wrap; lia|]. eapply cg_trans; [apply cg_wrap; lia|apply (cg_wrap 32 32); lia]. }
    destruct (S (cconv (ut W32) (lane 32 0 r)) (lane 32 1 r)) as (p & -> & C1). cbn [bind].
    destruct (S p (lane 32 2 r)) as (p2 & -> & C2). cbn [bind]. destruct (S p2 (lane 32 3 r)) as (p3 & -> & C3). cbn [bind snd].
    eexists. split; [reflexivity|]. change (lprod false 32 (nl 32 128) r) with (lane 32 0 r * (lane 32 1 r * (lane 32 2 r * (lane 32 3 r * 1)))).
    rewrite Z.mul_1_r, !Z.mul_assoc. eapply cg_trans; [exact C3|]. apply cg_mul; [lia| |apply cg_refl]. eapply cg_trans; [exact C2|]. apply cg_mul; [lia| |apply cg_refl].
    eapply cg_trans; [exact C1|]. apply cg_mul; [lia| |apply cg_refl]. apply (cg_wrap 32 32). lia.
  Qed.
  Lemma block_s_ok r : mags (map (value true 32) (elems 32 4 r)) < 2 ^ 31 -> mul_block A fp true r = Ok (lprod true 32 (nl 32 128) r).
  Proof.
    intros Hm. destruct (block4 r) as (m & E & G). unfold mul_block. rewrite E. cbn [bind sg2]. rewrite !G by lia. cbn [bind].
    assert (V : forall i, cconv (st W32) (lane 32 i r) = value true 32 (lane 32 i r)) by (intros; apply (cconv_value (st W32)); apply lane_range; cbn; lia).
    rewrite !V. unfold elems in Hm. cbn [seq map] in Hm. change (Z.of_nat 0) with 0 in Hm. change (Z.of_nat 1) with 1 in Hm. change (Z.of_nat 2) with 2 in Hm. change (Z.of_nat 3) with 3 in Hm.
    change (lprod true 32 (nl 32 128) r) with (value true 32 (lane 32 0 r) * (value true 32 (lane 32 1 r) * (value true 32 (lane 32 2 r) * (value true 32 (lane 32 3 r) * 1)))).
    set (b0 := value true 32 (lane 32 0 r)) in *. set (b1 := value true 32 (lane 32 1 r)) in *. set (b2 := value true 32 (lane 32 2 r)) in *. set (b3 := value true 32 (lane 32 3 r)) in *.
    rewrite !mags_cons in Hm. change (mags []) with 1 in Hm. rewrite Z.mul_1_r in Hm.
    assert (M : forall x, 1 <= mag x /\ Z.abs x <= mag x) by (intros; unfold mag; lia).
    destruct (M b0) as [P0 Q0], (M b1) as [P1 Q1], (M b2) as [P2 Q2], (M b3) as [P3 Q3]. set (m0 := mag b0) in *. set (m1 := mag b1) in *. set (m2 := mag b2) in *. set (m3 := mag b3) in *.
    assert (1 <= m2 * m3) by nia. assert (1 <= m1 * (m2 * m3)) by nia.
    assert (Z.abs (b0 * b1) <= m0 * m1) by (rewrite Z.abs_mul; nia). assert (Z.abs (b0 * b1 * b2) <= m0 * m1 * m2) by (rewrite Z.abs_mul; nia).
    assert (Z.abs (b0 * b1 * b2 * b3) <= m0 * m1 * m2 * m3) by (rewrite Z.abs_mul; nia).
    assert (m0 * m1 * m2 * m3 < 2 ^ 31) by lia. assert (1 <= m0 * m1) by nia. assert (1 <= m0 * m1 * m2) by nia.
    assert (m0 * m1 * m2 < 2 ^ 31) by nia. assert (m0 * m1 < 2 ^ 31) by nia. assert (m0 < 2 ^ 31) by nia. assert (m1 < 2 ^ 31) by nia. assert (m2 < 2 ^ 31) by nia. assert (m3 < 2 ^ 31) by nia.
    change (st W32) with c_i32. rewrite mul_i32 by (auto; lia). cbn [bind]. rewrite mul_i32 by (auto; lia). cbn [bind]. rewrite mul_i32 by (auto; lia). cbn [bind snd]. f_equal. ring.
  Qed.
End L.
