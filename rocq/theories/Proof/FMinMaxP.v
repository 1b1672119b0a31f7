(** floating-point min, max *)
From Verif Require Import Proof.FloatsP3 Spec.FloatOrd.
From Verif Require Export Model.FMinMax.
From Coq Require Import Lia.

Section S.
  Variable d : bool.
  Notation w := (fw d).
  Lemma f_lt_num x y : f_nan w x = false -> f_nan w y = false -> f_lt w x y = (f_val w x <? f_val w y).
  Proof. intros Hx Hy. unfold f_lt, f_unord. rewrite Hx, Hy. reflexivity. Qed.
  Lemma f_le_num x y : f_nan w x = false -> f_nan w y = false -> f_le w x y = (f_val w x <=? f_val w y).
  Proof. intros Hx Hy. unfold f_le, f_unord. rewrite Hx, Hy. reflexivity. Qed.
  Ltac num := intros Nx Ny; unfold f_unord; rewrite ?Nx, ?Ny; cbn [orb];
    rewrite ?f_lt_num, ?f_le_num by assumption;
    repeat match goal with |- context [?p <? ?q] => destruct (Z.ltb_spec p q) | |- context [?p <=? ?q] => destruct (Z.leb_spec p q) end;
    repeat match goal with |- context [if f_neg ?a ?b then _ else _] => destruct (f_neg a b) end;
    (split; [auto|lia]).
  Lemma mm_fmin_c x y : chooses_min w x y (mm_fmin w x y). Proof. unfold chooses_min, mm_fmin. num. Qed.
  Lemma mm_fmax_c x y : chooses_max w x y (mm_fmax w x y). Proof. unfold chooses_max, mm_fmax. num. Qed.
  Lemma null_fmin_c x y : chooses_min w x y (null_fmin w x y). Proof. unfold chooses_min, null_fmin. num. Qed.
  Lemma null_fmax_c x y : chooses_max w x y (null_fmax w x y). Proof. unfold chooses_max, null_fmax. num. Qed.
  Lemma hw_fmin_c x y : chooses_min w x y (hw_fmin w x y). Proof. unfold chooses_min, hw_fmin. num. Qed.
  Lemma hw_fmax_c x y : chooses_max w x y (hw_fmax w x y). Proof. unfold chooses_max, hw_fmax. num. Qed.
  Lemma msa_fmin_c x y : chooses_min w x y (msa_fmin w x y).
  Proof. intros Nx Ny. unfold msa_fmin. rewrite Nx, Ny. apply hw_fmin_c; auto. Qed.
  Lemma msa_fmax_c x y : chooses_max w x y (msa_fmax w x y).
  Proof. intros Nx Ny. unfold msa_fmax. rewrite Nx, Ny. apply hw_fmax_c; auto. Qed.
  Definition inr (x : Z) := 0 <= x < 2 ^ w.
  Lemma qnan_inr : inr (f_qnan w). Proof. unfold inr. destruct d; split; vm_compute; [discriminate|reflexivity|discriminate|reflexivity]. Qed.
  Ltac ran := intros; repeat match goal with |- context [if ?c then _ else _] => destruct c end; auto using qnan_inr.
  Lemma mm_fmin_r x y : inr x -> inr y -> inr (mm_fmin w x y). Proof. unfold mm_fmin. ran. Qed.
  Lemma mm_fmax_r x y : inr x -> inr y -> inr (mm_fmax w x y). Proof. unfold mm_fmax. ran. Qed.
  Lemma null_fmin_r x y : inr x -> inr y -> inr (null_fmin w x y). Proof. unfold null_fmin. ran. Qed.
  Lemma null_fmax_r x y : inr x -> inr y -> inr (null_fmax w x y). Proof. unfold null_fmax. ran. Qed.
  Lemma hw_fmin_r x y : inr x -> inr y -> inr (hw_fmin w x y). Proof. unfold hw_fmin. ran. Qed.
  Lemma hw_fmax_r x y : inr x -> inr y -> inr (hw_fmax w x y). Proof. unfold hw_fmax. ran. Qed.
  Lemma msa_fmin_r x y : inr x -> inr y -> inr (msa_fmin w x y). Proof. intros. unfold msa_fmin. pose proof (hw_fmin_r x y). ran. Qed.
  Lemma msa_fmax_r x y : inr x -> inr y -> inr (msa_fmax w x y). Proof. intros. unfold msa_fmax. pose proof (hw_fmax_r x y). ran. Qed.
End S.

Section T.
  Variables (A : arch) (d : bool) (s : rsz).
  Hypotheses (HV : valid_arch A = true) (HA : avail_flt A s = true).
  Notation w := (fw d).
  Notation R := (rbits s).
  Notation z := (fz (ftz A d) w).
  (** the lane function is one and the same for all registers *)
  Lemma fminmax_ok nul x86 hw msa (Q : Z -> Z -> Z -> Prop) :
    (forall x y, Q x y (nul w x y)) -> (forall x y, Q x y (x86 w x y)) -> (forall x y, Q x y (hw w x y)) -> (forall x y, Q x y (msa w x y)) ->
    (forall x y, inr d x -> inr d y -> inr d (nul w x y)) -> (forall x y, inr d x -> inr d y -> inr d (x86 w x y)) ->
    (forall x y, inr d x -> inr d y -> inr d (hw w x y)) -> (forall x y, inr d x -> inr d y -> inr d (msa w x y)) ->
    exists f, (forall a b, fminmax nul x86 hw msa A d s a b = Ok (v2 w R f a b)) /\
      (forall x y, inr d x -> inr d y -> inr d (f x y)) /\ forall x y, Q (z x) (z y) (f x y).
  Proof.
    intros Q1 Q2 Q3 Q4 R1 R2 R3 R4.
    assert (forall g, ftz A d = false -> (forall x y, Q x y (g x y)) -> forall x y, Q (z x) (z y) (g x y)) as HZ.
    { intros g E Hg x y. unfold fz. rewrite E. apply Hg. }
    assert (forall (P : (Z -> Z -> Z) -> Prop), 
      (ftz A d = false -> P (nul w)) -> (ftz A d = false -> P (x86 w)) -> P (fun x y => hw w (z x) (z y)) -> (ftz A d = false -> P (msa w)) ->
      exists f, P f /\ forall a b, fminmax nul x86 hw msa A d s a b = Ok (v2 w R f a b)) as HC.
    { intros P P1 P2 P3 P4. unfold fminmax. cbv zeta.
      destruct s; cbn [fl_sizes avail_flt rbits] in *.
      - pose proof (@fl_cases (Z -> Z -> Z) A d (fun r => exists f, r = Ok f /\ P f) (Ok (nul w)) (Ok (x86 w)) (Ok (fun x y => hw w (z x) (z y)))
          (Ok (fun x y => hw w (z x) (z y))) (Ok (msa w)) HV) as HF.
        destruct HF as (f & Ef & Pf).
        { intros H. eexists. split; [reflexivity|]. apply P1, H. }
        { intros H. eexists. split; [reflexivity|]. apply P2, H. }
        { intros H. eexists. split; [reflexivity|]. exact P3. }
        { intros H. eexists. split; [reflexivity|]. exact P3. }
        { intros H E. eexists. split; [reflexivity|]. apply P4, E. }
        exists f. split; [exact Pf|]. intros a b. revert Ef. clear. unfold fl_ladder.
        destruct d; repeat match goal with |- context [if ?c then _ else _] => lazymatch c with f_neg _ _ => fail | _ => destruct c end end;
        intros E; first [discriminate E | injection E as <-; reflexivity].
      - rewrite HA. exists (x86 w). split; [apply P2, (ftz_wide A d R256 HV HA); discriminate|]. reflexivity.
      - rewrite HA. exists (x86 w). split; [apply P2, (ftz_wide A d R512 HV HA); discriminate|]. reflexivity. }
    destruct (HC (fun f => (forall x y, inr d x -> inr d y -> inr d (f x y)) /\ forall x y, Q (z x) (z y) (f x y))) as (f & (F1 & F2) & E).
    - intros E. split; auto.
    - intros E. split; auto.
    - split; auto. intros x y Hx Hy. apply R3; apply fz_ran; auto.
    - intros E. split; auto.
    - exists f. auto.
  Qed.
  Lemma i_fmin_ok : exists f, (forall a b, i_fmin A d s a b = Ok (v2 w R f a b)) /\
      (forall x y, inr d x -> inr d y -> inr d (f x y)) /\ forall x y, chooses_min w (z x) (z y) (f x y).
  Proof.
    apply fminmax_ok; intros; auto using mm_fmin_c, null_fmin_c, hw_fmin_c, msa_fmin_c, mm_fmin_r, null_fmin_r, hw_fmin_r, msa_fmin_r.
  Qed.
  Lemma i_fmax_ok : exists f, (forall a b, i_fmax A d s a b = Ok (v2 w R f a b)) /\
      (forall x y, inr d x -> inr d y -> inr d (f x y)) /\ forall x y, chooses_max w (z x) (z y) (f x y).
  Proof.
    apply fminmax_ok; intros; auto using mm_fmax_c, null_fmax_c, hw_fmax_c, msa_fmax_c, mm_fmax_r, null_fmax_r, hw_fmax_r, msa_fmax_r.
  Qed.
End T.
