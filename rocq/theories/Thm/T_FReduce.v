(** C52: reduce_add, reduce_mul, reduce_min, reduce_max of floats. *)
From Verif Require Import Proof.FloatsP3 Proof.FloatRoundP Proof.FArithP Proof.FMinMaxP Proof.FConvP Proof.FConvP3 Proof.FRoundP Proof.FReduceP Proof.FReduceP2 Model.FReduce Spec.FloatReduce.
From Coq Require Import Lia Permutation.

Lemma comb_mono (P Q : Z -> Z -> Z -> Prop) l r : (forall x y z, P x y z -> Q x y z) -> combined P l r -> combined Q l r.
Proof. intros HPQ H. induction H; [apply c_one|eapply c_step; eauto|eapply c_any; eauto]. Qed.
Lemma red_mono w s op (F G : list Z -> Z -> Prop) : (forall l r, F l r -> G l r) -> reduces w s op F -> reduces w s op G.
Proof. intros HFG H va Hv Hn. destruct (H va Hv Hn) as (r & E & K). exists r. auto. Qed.

Lemma total_app l m : total (l ++ m) = total l + total m.
Proof. unfold total. induction l as [|x l IH]; cbn [app map fold_right]; [lia|rewrite IH; lia]. Qed.
Lemma product_app l m : product (l ++ m) = product l * product m.
Proof. unfold product. induction l as [|x l IH]; cbn [app map fold_right]; [lia|rewrite IH; ring]. Qed.
Lemma total_perm l m : Permutation l m -> total l = total m.
Proof. unfold total. induction 1; cbn [fold_right]; lia. Qed.
Lemma product_perm l m : Permutation l m -> product l = product m.
Proof. unfold product. induction 1 as [|x l m HP IH|x y l|l m n H1 I1 H2 I2]; cbn [fold_right]; [reflexivity|rewrite IH; reflexivity|ring|rewrite I1; exact I2]. Qed.
Lemma mag_bound l : Z.abs (total l) <= magnitude l.
Proof. unfold magnitude, total. induction l as [|x l IH]; cbn [app map fold_right]; lia. Qed.
Lemma fac_pos l : 1 <= factors l.
Proof. unfold factors, product. induction l as [|x l IH]; cbn [map fold_right]; [lia|]. nia. Qed.
Lemma fac_bound l : Z.abs (product l) <= factors l.
Proof. pose proof (fac_pos l) as H. revert H. unfold factors, product. induction l as [|x l IH]; cbn [map fold_right]; [lia|]. intros _. pose proof (fac_pos l) as H. specialize (IH H). unfold factors, product in H. rewrite Z.abs_mul. nia. Qed.

Section S.
  Variables (A : arch) (fp : Z) (d : bool) (s : rsz).
  Hypotheses (HV : valid_arch A = true) (Hfp : fp mod 16 = 0) (HA : avail_flt A s = true).
  Local Notation w := (fw d).
  Local Notation z := (fz (ftz A d) w).
  Local Notation one := (2 ^ fulp w).

  (** Every lane takes part in exactly one place of a tree of correctly rounded additions. *)
  Theorem reduce_add_float_flush :
    reduces w s (reduce_f A fp RAdd d s) (combined (fun x y r => r = z (f_add w (z x) (z y)))).
  Proof. exact (reduce_f_ok A fp RAdd HV Hfp d s HA). Qed.
  Theorem reduce_add_float_partial : ftz A d = false ->
    reduces w s (reduce_f A fp RAdd d s) (combined (fun x y r => r = f_add w x y)).
  Proof. intros E. pose proof reduce_add_float_flush as H. rewrite E in H. exact H. Qed.
  Theorem reduce_mul_float_partial : ftz A d = false ->
    reduces w s (reduce_f A fp RMul d s) (combined (fun x y r => r = f_mul w x y)).
  Proof.
    intros E. pose proof (reduce_f_ok A fp RMul HV Hfp d s HA) as H. eapply red_mono; [|exact H]. intros l r. apply comb_mono.
    intros x y q. unfold step. rewrite E. pose proof (madd_ftz A d) as M. destruct (by_madd A d); [rewrite M in E by auto; discriminate|]. auto.
  Qed.

  Lemma z_int x n : is_int w x n -> z x = x.
  Proof. intros [_ Hv]. unfold fz. destruct (ftz A d); auto. apply (int_not_denormal d x n Hv). Qed.
  Lemma Forall2_perm (R : Z -> Z -> Prop) l l' ns : Permutation l l' -> Forall2 R l' ns -> exists ms, Permutation ms ns /\ Forall2 R l ms.
  Proof.
    intros HP. revert ns. induction HP; intros ns HF.
    - exists ns. auto.
    - inversion HF; subst. destruct (IHHP _ H3) as (ms & P1 & F1). eexists (_ :: ms). split; [constructor; exact P1|constructor; auto].
    - inversion HF; subst. inversion H3; subst. eexists (_ :: _ :: _). split; [apply perm_swap|constructor; [eauto|constructor; eauto]].
    - destruct (IHHP2 _ HF) as (ms & P1 & F1). destruct (IHHP1 _ F1) as (ms' & P2 & F2). exists ms'. split; auto. etransitivity; eauto.
  Qed.
  (** exactness of a tree, when each step is exact below the bound *)
  Lemma comb_exact (P : Z -> Z -> Z -> Prop) (f g : list Z -> Z) B :
    (forall x, f [x] = x) -> (forall l m, Permutation l m -> f l = f m) -> (forall l m, Permutation l m -> g l = g m) ->
    (forall l m, g (l ++ m) <= B -> g l <= B /\ g m <= B) ->
    (forall l m x y r, g (l ++ m) <= B -> is_int w x (f l) -> is_int w y (f m) -> P x y r -> is_int w r (f (l ++ m))) ->
    forall l r, combined P l r -> forall ns, Forall2 (is_int w) l ns -> g ns <= B -> is_int w r (f ns).
  Proof.
    intros H1 Hf Hg Hb HP l r H. induction H; intros ns HF HB.
    - inversion HF; subst. inversion H4; subst. rewrite H1. auto.
    - apply Forall2_app_inv_l in HF as (n1 & n2 & F1 & F2 & ->). destruct (Hb _ _ HB). eapply HP; eauto.
    - destruct (Forall2_perm _ _ _ _ H HF) as (ms & PM & FM). rewrite <- (Hf _ _ PM). apply IHcombined; auto. rewrite (Hg _ _ PM). auto.
  Qed.
  Lemma int_mag n : Z.abs n <= 2 ^ (fmant w + 1) -> exists m, 0 <= m < f_inf w /\ f_abs_val w m = Z.abs n * one.
  Proof. intros H. destruct (int_rep d (Z.abs n) 0) as (m & Hm & E); [lia|lia|]. exists m. split; auto. rewrite E. lia. Qed.

  (** Sums of integers are exact on every architecture, whatever the order, as long as the
      magnitudes add up to at most 2^24 (2^53). *)
  Theorem reduce_add_float_exact : forall va ns, wfv s va -> va <> [] ->
    Forall2 (is_int w) (lanes w s va) ns -> magnitude ns <= 2 ^ (fmant w + 1) ->
    exists r, reduce_f A fp RAdd d s va = Ok r /\ is_int w r (total ns).
  Proof.
    intros va ns Hv Hn HF HB. destruct (reduce_add_float_flush va Hv Hn) as (r & E & C). exists r. split; auto. clear E.
    refine (comb_exact _ total magnitude _ _ total_perm _ _ _ _ _ C ns HF HB).
    - intros x. unfold total. cbn. lia.
    - intros l m HP. apply total_perm, Permutation_map, HP.
    - intros l m. unfold magnitude. rewrite map_app, total_app. pose proof (mag_bound l). pose proof (mag_bound m). unfold magnitude in *. lia.
    - intros l m x y q HM Hx Hy ->. rewrite (z_int _ _ Hx), (z_int _ _ Hy), total_app. destruct Hx as [Fx Vx], Hy as [Fy Vy].
      pose proof (mag_bound (l ++ m)) as HQ. rewrite total_app in HQ. destruct (int_mag (total l + total m)) as (k & Hk & Ek); [lia|].
      pose proof (one_pos d) as HO.
      destruct (f_add_exact d x y k Fx Fy Hk) as [F1 V1]; [rewrite Ek, Vx, Vy, <- Z.mul_add_distr_r, Z.abs_mul, (Z.abs_eq one) by lia; reflexivity|].
      assert (HI : is_int w (f_add w x y) (total l + total m)) by (split; auto; rewrite V1, Vx, Vy; lia).
      rewrite (z_int _ _ HI). exact HI.
  Qed.

  Lemma round_int n : 0 <= n <= 2 ^ (fmant w + 1) -> exists m, 0 <= m < f_inf w /\ f_abs_val w m = n * one /\ f_round w (n * one * one) (fulp w) = m.
  Proof.
    intros H. destruct (int_mag n) as (m & Hm & E); [lia|]. rewrite (Z.abs_eq n) in E by lia. exists m. split; auto. split; auto.
    pose proof (one_pos d) as HO. destruct (f_round_nearest d (n * one * one) (fulp w)) as [HR HN]; [nia|destruct d; discriminate|].
    destruct (HN m) as [N1 _]; [lia|]. rewrite E in N1. replace (n * one * one - n * one * one) with 0 in N1 by lia. change (Z.abs 0) with 0 in N1.
    assert (EQ : f_abs_val w (f_round w (n * one * one) (fulp w)) = f_abs_val w m) by (rewrite E; nia).
    destruct (Z.lt_trichotomy (f_round w (n * one * one) (fulp w)) m) as [L|[L|L]]; auto; exfalso.
    - assert (Q := val_mono d _ _ (proj1 HR) L (Z.lt_le_incl _ _ (proj2 Hm))). lia.
    - assert (Q := val_mono d _ _ (proj1 Hm) L (proj2 HR)). lia.
  Qed.
  Lemma mul_exact x y a b : is_int w x a -> is_int w y b -> Z.abs (a * b) <= 2 ^ (fmant w + 1) -> is_int w (f_mul w x y) (a * b).
  Proof.
    intros [Fx Vx] [Fy Vy] HB. destruct (finite_mag d x Fx) as (_ & Nx & Ix), (finite_mag d y Fy) as (_ & Ny & Iy).
    unfold f_mul, f_unord. rewrite Nx, Ny, Ix, Iy. cbn [orb]. cbv zeta. pose proof (one_pos d) as HO.
    assert (Ex : f_abs_val w x = Z.abs a * one /\ (f_neg w x = false -> 0 <= a) /\ (f_neg w x = true -> a <= 0)).
    { pose proof (abs_val_nonneg d x). unfold f_val in Vx. destruct (f_neg w x); (split; [nia|split; intros; try discriminate; nia]). }
    assert (Ey : f_abs_val w y = Z.abs b * one /\ (f_neg w y = false -> 0 <= b) /\ (f_neg w y = true -> b <= 0)).
    { pose proof (abs_val_nonneg d y). unfold f_val in Vy. destruct (f_neg w y); (split; [nia|split; intros; try discriminate; nia]). }
    destruct Ex as (-> & X0 & X1), Ey as (-> & Y0 & Y1). replace (Z.abs a * one * (Z.abs b * one)) with (Z.abs (a * b) * one * one) by (rewrite Z.abs_mul; ring).
    destruct (round_int (Z.abs (a * b))) as (m & Hm & E & ->); [lia|]. destruct (finite_sm d (xorb (f_neg w x) (f_neg w y)) m Hm) as [F _].
    split; auto. destruct (val_sm d (xorb (f_neg w x) (f_neg w y)) m) as [-> _]; [lia|]. rewrite E.
    destruct (f_neg w x), (f_neg w y); cbn [xorb]; (try specialize (X0 eq_refl)); (try specialize (X1 eq_refl)); (try specialize (Y0 eq_refl)); (try specialize (Y1 eq_refl)); nia.
  Qed.
  Lemma is_int_0 : is_int w 0 0. Proof. split; destruct d; reflexivity. Qed.
  Lemma fma_exact x y a b : is_int w x a -> is_int w y b -> Z.abs (a * b) <= 2 ^ (fmant w + 1) -> is_int w (f_fma w x y 0) (a * b).
  Proof.
    intros [Fx Vx] [Fy Vy] HB. destruct (finite_mag d x Fx) as (_ & Nx & Ix), (finite_mag d y Fy) as (_ & Ny & Iy).
    unfold f_fma. rewrite Nx, Ny, Ix, Iy. replace (f_nan w 0) with false by (destruct d; reflexivity). replace (f_isinf w 0) with false by (destruct d; reflexivity).
    cbn [orb]. cbv zeta. replace (f_neg w 0) with false by (destruct d; reflexivity). replace (f_val w 0) with 0 by (destruct d; reflexivity). rewrite andb_false_r, Z.mul_0_l, Z.add_0_r, Vx, Vy.
    pose proof (one_pos d) as HO. destruct (Z.eqb_spec (a * one * (b * one)) 0) as [E0|E0].
    - assert (a * b = 0) as -> by nia. apply is_int_0.
    - replace (Z.abs (a * one * (b * one))) with (Z.abs (a * b) * one * one) by (rewrite !Z.abs_mul, (Z.abs_eq one) by lia; ring).
      destruct (round_int (Z.abs (a * b))) as (m & Hm & E & ->); [lia|]. destruct (finite_sm d (a * one * (b * one) <? 0) m Hm) as [F _].
      split; auto. destruct (val_sm d (a * one * (b * one) <? 0) m) as [-> _]; [lia|]. rewrite E.
      replace (a * one * (b * one)) with (a * b * (one * one)) in * by ring. destruct (Z.ltb_spec (a * b * (one * one)) 0); nia.
  Qed.
  (** Products of integers likewise, as long as the product of the nonzero magnitudes is at most
      2^24 (2^53). *)
  Theorem reduce_mul_float_exact : forall va ns, wfv s va -> va <> [] ->
    Forall2 (is_int w) (lanes w s va) ns -> factors ns <= 2 ^ (fmant w + 1) ->
    exists r, reduce_f A fp RMul d s va = Ok r /\ is_int w r (product ns).
  Proof.
    intros va ns Hv Hn HF HB. destruct (reduce_f_ok A fp RMul HV Hfp d s HA va Hv Hn) as (r & E & C). exists r. split; auto. clear E.
    refine (comb_exact _ product factors _ _ product_perm _ _ _ _ _ C ns HF HB).
    - intros x. unfold product. cbn. lia.
    - intros l m HP. apply product_perm, Permutation_map, HP.
    - intros l m. pose proof (fac_pos l). pose proof (fac_pos m). unfold factors in *. rewrite map_app, product_app. nia.
    - intros l m x y q HM Hx Hy HS. unfold step in HS. cbv zeta in HS. subst q. rewrite (z_int _ _ Hx), (z_int _ _ Hy), product_app.
      pose proof (fac_bound (l ++ m)) as HQ. rewrite product_app in HQ. 
      assert (HI : is_int w (if by_madd A d then f_fma w x y 0 else f_mul w x y) (product l * product m)).
      { destruct (by_madd A d); [apply fma_exact|apply mul_exact]; auto; lia. }
      rewrite (z_int _ _ HI). exact HI.
  Qed.

  Lemma zz x : z (z x) = z x.
  Proof.
    unfold fz. destruct (ftz A d); auto. assert (E : f_denormal w (f_flush w x) = false).
    { unfold f_denormal. rewrite (f_mag_flush d R128). destruct (f_denormal w x) eqn:E2; [reflexivity|exact E2]. }
    remember (f_flush w x) as y eqn:Ey. unfold f_flush. rewrite E. reflexivity.
  Qed.
  Lemma nan_z x : f_nan w (z x) = f_nan w x.
  Proof. apply (f_nan_z A d R128). Qed.
  Lemma comb_choice (le : Z -> Z -> Z) (P : Z -> Z -> Z -> Prop) (T : list Z -> Z -> Prop) :
    (forall x y r, f_nan w x = false -> f_nan w y = false -> P x y r -> (r = z x \/ r = z y) /\ f_val w r = le (f_val w (z x)) (f_val w (z y))) ->
    (forall v, T [v] v) -> (forall l m u v, T l u -> T m v -> T (l ++ m) (le u v)) -> (forall l m v, Permutation l m -> T l v -> T m v) ->
    forall l r, combined P l r -> Forall (fun x => f_nan w x = false) l ->
      f_nan w r = false /\ In (z r) (map z l) /\ T (map (fun x => f_val w (z x)) l) (f_val w (z r)).
  Proof.
    intros HP T1 T2 T3 l r H. induction H; intros HN.
    - split; [inversion HN; auto|]. split; [left; auto|apply T1].
    - apply Forall_app in HN as [N1 N2]. destruct (IHcombined1 N1) as (A1 & A2 & A3), (IHcombined2 N2) as (B1 & B2 & B3).
      destruct (HP _ _ _ A1 B1 H1) as [HR HV']. assert (EZ : z r = r) by (destruct HR as [-> | ->]; apply zz). rewrite EZ.
      split; [destruct HR as [-> | ->]; rewrite nan_z; auto|]. rewrite !map_app. split; [apply in_or_app; destruct HR as [-> | ->]; auto|]. rewrite HV'. apply T2; auto.
    - assert (HN' : Forall (fun x => f_nan w x = false) l) by (eapply Permutation_Forall; [apply Permutation_sym; exact H|auto]).
      destruct (IHcombined HN') as (B1 & B2 & B3). split; auto. split; [eapply Permutation_in; [apply Permutation_map; exact H|auto]|eapply T3; [apply Permutation_map; exact H|auto]].
  Qed.
  (** The least lane, when none is NaN (denormal lanes counting as zeros where the hardware
      flushes them). *)
  Theorem reduce_min_float_flush :
    reduces w s (reduce_f A fp RMin d s) (fun l r => Forall (fun x => f_nan w x = false) l ->
      In (z r) (map z l) /\ least (map (fun x => f_val w (z x)) l) (f_val w (z r))).
  Proof.
    eapply red_mono; [|exact (reduce_f_ok A fp RMin HV Hfp d s HA)]. intros l r C HN.
    refine (proj2 (comb_choice Z.min _ least _ _ _ _ l r C HN)).
    - intros x y q Hx Hy HS. unfold step, chooses_min in HS. cbv zeta in HS. apply HS; rewrite nan_z; auto.
    - intros v. split; [left; auto|]. intros x [->|[]]. lia.
    - intros l1 m u v [I1 L1] [I2 L2]. split.
      + apply in_or_app. destruct (Z.min_spec u v) as [[_ ->]|[_ ->]]; auto.
      + intros x Hx. apply in_app_or in Hx as [Hx|Hx]; [specialize (L1 _ Hx)|specialize (L2 _ Hx)]; lia.
    - intros l1 m v HP [I1 L1]. split; [eapply Permutation_in; eauto|]. intros x Hx. apply L1. eapply Permutation_in; [apply Permutation_sym; exact HP|auto].
  Qed.
  Theorem reduce_max_float_flush :
    reduces w s (reduce_f A fp RMax d s) (fun l r => Forall (fun x => f_nan w x = false) l ->
      In (z r) (map z l) /\ greatest (map (fun x => f_val w (z x)) l) (f_val w (z r))).
  Proof.
    eapply red_mono; [|exact (reduce_f_ok A fp RMax HV Hfp d s HA)]. intros l r C HN.
    refine (proj2 (comb_choice Z.max _ greatest _ _ _ _ l r C HN)).
    - intros x y q Hx Hy HS. unfold step, chooses_max in HS. cbv zeta in HS. apply HS; rewrite nan_z; auto.
    - intros v. split; [left; auto|]. intros x [->|[]]. lia.
    - intros l1 m u v [I1 L1] [I2 L2]. split.
      + apply in_or_app. destruct (Z.max_spec u v) as [[_ ->]|[_ ->]]; auto.
      + intros x Hx. apply in_app_or in Hx as [Hx|Hx]; [specialize (L1 _ Hx)|specialize (L2 _ Hx)]; lia.
    - intros l1 m v HP [I1 L1]. split; [eapply Permutation_in; eauto|]. intros x Hx. apply L1. eapply Permutation_in; [apply Permutation_sym; exact HP|auto].
  Qed.
  Theorem reduce_min_float_partial : ftz A d = false ->
    reduces w s (reduce_f A fp RMin d s) (fun l r => Forall (fun x => f_nan w x = false) l -> In r l /\ least (map (f_val w) l) (f_val w r)).
  Proof. intros E. pose proof reduce_min_float_flush as H. unfold fz in H. rewrite E in H. eapply red_mono; [|exact H]. intros l r K HN. specialize (K HN). rewrite map_id in K. exact K. Qed.
  Theorem reduce_max_float_partial : ftz A d = false ->
    reduces w s (reduce_f A fp RMax d s) (fun l r => Forall (fun x => f_nan w x = false) l -> In r l /\ greatest (map (f_val w) l) (f_val w r)).
  Proof. intros E. pose proof reduce_max_float_flush as H. unfold fz in H. rewrite E in H. eapply red_mono; [|exact H]. intros l r K HN. specialize (K HN). rewrite map_id in K. exact K. Qed.
End S.

(** The order of the additions, and with it the result, depends on the architecture: 2^24, 1, 1, 1
    gives 2^24 without SIMD and 2^24 + 2 with SSE3. *)
Theorem reduce_add_float_portable_refuted :
  let v := [pack 32 128 (fun i => if i =? 0 then 0x4b800000 else 0x3f800000)] in
  valid_arch arch_null = true /\ valid_arch arch_ssse3 = true /\
  reduce_f arch_null 0 RAdd false R128 v = Ok 0x4b800000 /\ reduce_f arch_ssse3 0 RAdd false R128 v = Ok 0x4b800001.
Proof. split; [|split; [|split]]; vm_compute; reflexivity. Qed.
(** where denormals are flushed the least lane is not always returned: of 2^-149 and 2^-148, zero *)
Theorem reduce_min_float_flush_refuted :
  let v := [pack 32 128 (fun i => 1 + i)] in
  reduce_f arch_altivec 0 RMin false R128 v = Ok 0 /\ ~ In 0 (lanes 32 R128 v).
Proof. split; [vm_compute; reflexivity|]. vm_compute. intuition discriminate. Qed.
Example freduce_case :
  let v k := [pack 32 128 (fun i => if i =? k then 0xc0000000 else 0x40400000); splat 32 128 0x3f800000] in
  reduce_f arch_null 0 RAdd false R128 (v 2) = Ok 0x41300000 /\ reduce_f arch_sse2 0 RMul false R128 (v 3) = Ok 0xc2580000 /\
  reduce_f arch_neon64 0 RMin false R128 (v 0) = Ok 0xc0000000 /\ reduce_f arch_avx 0 RMax false R128 (v 1) = Ok 0x40400000.
Proof. split; [|split; [|split]]; vm_compute; reflexivity. Qed.
