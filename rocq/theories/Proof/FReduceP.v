(** Reductions of floats *)
From Verif Require Import Proof.FloatsP3 Proof.FArithP Proof.FMinMaxP Proof.PermuteP Proof.MoveP Proof.ExtractP2 Proof.ReduceP Spec.FloatReduce.
From Verif Require Export Model.FReduce.
From Coq Require Import Lia Permutation.

Section C.
  Variable P : Z -> Z -> Z -> Prop.
  Notation comb := (combined P).
  Lemma perm_concat {X} (l l' : list (list X)) : Permutation l l' -> Permutation (concat l) (concat l').
  Proof.
    induction 1; cbn [concat]; auto.
    - apply Permutation_app_head; auto.
    - rewrite !app_assoc. apply Permutation_app_tail, Permutation_app_comm.
    - eapply perm_trans; eauto.
  Qed.
  Lemma F2_flip {X Y} (R : X -> Y -> Prop) l m : Forall2 R l m -> Forall2 (fun y x => R x y) m l.
  Proof. induction 1; constructor; auto. Qed.
  Lemma comb_subst l r : comb l r -> forall ls, Forall2 comb ls l -> comb (concat ls) r.
  Proof.
    induction 1 as [x|l1 l2 x y r H1 IH1 H2 IH2 HP|l l' r HP H IH]; intros ls HF.
    - inversion HF as [|a b la lb Ha Hb]; subst. inversion Hb; subst. cbn [concat]. rewrite app_nil_r. exact Ha.
    - apply Forall2_app_inv_r in HF as (a & b & Ha & Hb & ->). rewrite concat_app. eapply c_step; eauto.
    - destruct (Permutation_Forall2 (Permutation_sym HP) (F2_flip _ _ _ HF)) as (ls' & Hp & HF'). apply F2_flip in HF'.
      eapply c_any; [|apply IH; exact HF']. apply perm_concat, Permutation_sym. exact Hp.
  Qed.
  (** the results r_i of P x_i y_i are combined further, with others *)
  Lemma comb_zip xs : forall ys rs tl r, Forall2 (fun p q => P (fst p) (snd p) q) (combine xs ys) rs -> length xs = length ys ->
    comb (rs ++ tl) r -> comb (xs ++ ys ++ tl) r.
  Proof.
    intros ys rs tl r HF HL HC.
    apply c_any with (concat (map (fun p => [fst p; snd p]) (combine xs ys) ++ map (fun x => [x]) tl)).
    - rewrite concat_app. assert (concat (map (fun x : Z => [x]) tl) = tl) as -> by (clear; induction tl as [|t tl IHt]; cbn; f_equal; auto).
      rewrite app_assoc. apply Permutation_app_tail. clear - HL. revert ys HL. induction xs as [|x xs IH]; intros [|y ys] HL; cbn in HL; try discriminate; [constructor|].
      cbn. constructor. eapply perm_trans; [|apply Permutation_middle]. constructor. apply IH. lia.
    - apply (comb_subst (rs ++ tl)); auto. apply Forall2_app.
      + clear - HF. induction HF as [|[x y] q l m H HF IH]; cbn; constructor; auto. apply (c_step P [x] [y] x y q); auto using c_one.
      + clear. induction tl; constructor; auto using c_one.
  Qed.
  Lemma comb2 a b r : P a b r -> comb [a; b] r.
  Proof. intros. apply (c_step P [a] [b] a b); auto using c_one. Qed.
  Lemma comb_pairs a b c e x y r : P a b x -> P c e y -> P x y r -> comb [a; b; c; e] r.
  Proof. intros. apply (c_step P [a; b] [c; e] x y); auto using comb2. Qed.
  Lemma comb_cross a b c e x y r : P a c x -> P b e y -> P x y r -> comb [a; b; c; e] r.
  Proof. intros. apply c_any with [a; c; b; e]; [constructor; constructor|]. eapply comb_pairs; eauto. Qed.
  Lemma comb_loop l : forall (f : Z -> Z -> Z) (Q : Z -> Prop) m x, (forall x y, Q x -> Q y -> Q (f x y) /\ P x y (f x y)) -> Q x -> Forall Q l ->
    comb m x -> comb (m ++ l) (fold_left f l x).
  Proof.
    induction l as [|a l IH]; intros f Q m x Hf Hx Hl HC; cbn [fold_left]; [rewrite app_nil_r; auto|].
    inversion Hl; subst. destruct (Hf x a) as [H3 H4]; auto. replace (m ++ a :: l) with ((m ++ [a]) ++ l) by (rewrite <- app_assoc; reflexivity).
    apply (IH f Q); auto. eapply c_step; eauto using c_one.
  Qed.
End C.

Section O.
  Variables (A : arch) (fp : Z) (o : rop).
  Hypotheses (HV : valid_arch A = true) (Hfp : fp mod 16 = 0).
  (** one step of the reduction *)
  Definition step (d : bool) (x y r : Z) : Prop :=
    let w := fw d in let z := fz (ftz A d) w in
    match o with
    | RAdd => r = z (f_add w (z x) (z y))
    | RMul => r = z (if by_madd A d then f_fma w (z x) (z y) 0 else f_mul w (z x) (z y))
    | RMin => chooses_min w (z x) (z y) r
    | RMax => chooses_max w (z x) (z y) r
    end.
  Definition good (d : bool) (F : Z -> Z -> Z) : Prop := forall x y, inr d x -> inr d y -> inr d (F x y) /\ step d x y (F x y).
  Lemma fz_inr d x : inr d x -> inr d (fz (ftz A d) (fw d) x). Proof. apply fz_ran. Qed.
  Lemma r_op_ok d s : avail_flt A s = true -> exists F, (forall a b, r_op A o d s a b = Ok (v2 (fw d) (rbits s) F a b)) /\ good d F.
  Proof.
    intros HA. unfold r_op, good, step. destruct o.
    - eexists. split; [intros; apply farith_ok; auto|]. intros x y Hx Hy. split; [|reflexivity]. apply fz_inr, f_add_ran; apply fz_inr; auto.
    - eexists. split; [intros; apply i_fmul_ok; auto|]. intros x y Hx Hy. split; [|reflexivity]. apply fz_inr. destruct (by_madd A d); [apply f_fma_ran; destruct d; split; discriminate || reflexivity|apply f_mul_ran].
    - destruct (i_fmin_ok A d s HV HA) as (F & E & R & C). exists F. split; auto.
    - destruct (i_fmax_ok A d s HV HA) as (F & E & R & C). exists F. split; auto.
  Qed.
  Lemma scalar_good d : ftz A d = false -> good d (r_scalar o (fw d)).
  Proof.
    intros HZ x y Hx Hy. unfold r_scalar, step. cbv zeta. rewrite HZ. cbn [fz]. 
    assert (by_madd A d = false) as HB. { destruct (by_madd A d) eqn:E; auto. rewrite (madd_ftz A d) in HZ by auto. discriminate. }
    destruct o.
    - split; [apply f_add_ran; auto|reflexivity].
    - rewrite HB. split; [apply f_mul_ran|reflexivity].
    - split; [apply mm_fmin_r; auto|apply mm_fmin_c].
    - split; [apply mm_fmax_r; auto|apply mm_fmax_c].
  Qed.
  Lemma neon_good : use_altivec A = false -> good false (r_neon A o 32).
  Proof.
    intros HB x y Hx Hy. unfold r_neon, step. cbv zeta. assert (by_madd A false = false) as EB by (unfold by_madd; rewrite HB; reflexivity). change (fw false) with 32. pose proof (fz_inr false x Hx) as Zx. pose proof (fz_inr false y Hy) as Zy. change (fw false) with 32 in *.
    destruct o.
    - split; [|reflexivity]. apply (fz_inr false). apply (f_add_ran false); auto.
    - rewrite EB. split; [|reflexivity]. apply (fz_inr false). apply (f_mul_ran false).
    - split; [apply (hw_fmin_r false); auto|apply (hw_fmin_c false)].
    - split; [apply (hw_fmax_r false); auto|apply (hw_fmax_c false)].
  Qed.
  Lemma minnm_good d : ftz A d = false -> is_mm o = true -> good d (r_minnm o (fw d)).
  Proof.
    intros HZ HM x y Hx Hy. unfold r_minnm, step. cbv zeta. rewrite HZ. cbn [fz]. destruct o; try discriminate HM.
    - split; [apply msa_fmin_r; auto|apply msa_fmin_c].
    - split; [apply msa_fmax_r; auto|apply msa_fmax_c].
  Qed.
  Lemma lane_inr d i a : inr d (lane (fw d) i a). Proof. apply lane_range. destruct d; discriminate. Qed.
  Lemma lane_good d R F i a b : wok (fw d) R = true -> 0 <= i < R / fw d -> good d F ->
    lane (fw d) i (v2 (fw d) R F a b) = F (lane (fw d) i a) (lane (fw d) i b).
  Proof. intros HW Hi HG. rewrite lane_v2 by auto. apply wrap_small. apply HG; apply lane_inr. Qed.
  Lemma step_F d F x y : good d F -> inr d x -> inr d y -> step d x y (F x y). Proof. intros H Hx Hy. apply H; auto. Qed.
  Lemma F_inr d F x y : good d F -> inr d x -> inr d y -> inr d (F x y). Proof. intros H Hx Hy. apply H; auto. Qed.
  Notation comb d := (combined (step d)).
  Lemma elems4 a : elems 32 (nl 32 128) a = [lane 32 0 a; lane 32 1 a; lane 32 2 a; lane 32 3 a]. Proof. reflexivity. Qed.
  Lemma elems2 a : elems 64 (nl 64 128) a = [lane 64 0 a; lane 64 1 a]. Proof. reflexivity. Qed.
  Lemma hadd_lane d i a b : 0 <= i < 128 / fw d -> ftz A d = false -> o = RAdd ->
    let n := 128 / fw d in let x := if i <? n / 2 then a else b in let j := 2 * (i mod (n / 2)) in
    lane (fw d) i (mm_hadd_f (fw d) a b) = f_add (fw d) (lane (fw d) j x) (lane (fw d) (j + 1) x) /\
    step d (lane (fw d) j x) (lane (fw d) (j + 1) x) (lane (fw d) i (mm_hadd_f (fw d) a b)).
  Proof.
    intros Hi HZ Ho. cbv zeta. assert (HW : wok (fw d) 128 = true) by (destruct d; reflexivity).
    assert (E : lane (fw d) i (mm_hadd_f (fw d) a b) = f_add (fw d) (lane (fw d) (2 * (i mod (128 / fw d / 2))) (if i <? 128 / fw d / 2 then a else b)) (lane (fw d) (2 * (i mod (128 / fw d / 2)) + 1) (if i <? 128 / fw d / 2 then a else b))).
    { unfold mm_hadd_f. cbv zeta. rewrite lane_pack by auto. apply wrap_small. apply f_add_ran; apply lane_inr. }
    split; auto. rewrite E. unfold step. rewrite Ho, HZ. reflexivity.
  Qed.
  (** HADD four times *)
  Lemma hadd32 i a b : 0 <= i < 4 -> ftz A false = false -> o = RAdd ->
    step false (lane 32 (2 * (i mod 2)) (if i <? 2 then a else b)) (lane 32 (2 * (i mod 2) + 1) (if i <? 2 then a else b)) (lane 32 i (mm_hadd_f 32 a b)).
  Proof. intros Hi HZ Ho. apply (hadd_lane false i a b Hi HZ Ho). Qed.
  Lemma hadd64 i a b : 0 <= i < 2 -> ftz A true = false -> o = RAdd ->
    step true (lane 64 (2 * (i mod 1)) (if i <? 1 then a else b)) (lane 64 (2 * (i mod 1) + 1) (if i <? 1 then a else b)) (lane 64 i (mm_hadd_f 64 a b)).
  Proof. intros Hi HZ Ho. apply (hadd_lane true i a b Hi HZ Ho). Qed.
  Lemma null_ok d a : ftz A d = false -> exists r, r_null o d a = Ok r /\ comb d (elems (fw d) (nl (fw d) 128) a) r.
  Proof.
    intros HZ. eexists. split; [reflexivity|].
    replace (elems (fw d) (nl (fw d) 128) a) with ([lane (fw d) 0 a] ++ map (fun i => lane (fw d) (Z.of_nat i) a) (seq 1 (nl (fw d) 128 - 1))) by (destruct d; reflexivity).
    apply (comb_loop (step d) _ (r_scalar o (fw d)) (inr d)).
    - intros x y Hx Hy. apply (scalar_good d HZ x y Hx Hy).
    - apply lane_inr.
    - apply Forall_forall. intros x Hx. apply in_map_iff in Hx as (i & <- & _). apply lane_inr.
    - apply c_one.
  Qed.
End O.
