(** C57: accuracy of log2_approx and log2_approx_positive_finite *)
From Verif Require Export Proof.Log2AccP Thm.T_Log2.
From Verif Require Import Proof.FloatsP3 Proof.FloatRoundP Proof.FArithP Proof.FConvP Proof.FConv64P Proof.FConvP2 Thm.T_FArith Thm.T_FConv Proof.Log2P.
From Coq Require Import Lia Reals Lra Psatz.
Local Open Scope Z_scope.

(** a positive number that is neither denormal nor infinite *)
Definition f_pos_normal (x : Z) : bool := (2 ^ 23 <=? x) && (x <? 0x7f800000).
(** the base-2 logarithm *)
Definition Rlog2 (v : R) : R := (ln v / ln 2)%R.
Definition log2_near (x r : Z) : Prop := f_pos_normal x = true ->
  f_finite 32 r = true /\ (Rabs (f_real r - Rlog2 (f_real x)) <= 1 / 100)%R.

Lemma split_pat e f : 0 <= e < 255 -> 0 <= f < 2 ^ 23 -> f_val 32 (e * 2 ^ 23 + f) = if e =? 0 then f else (2 ^ 23 + f) * 2 ^ (e - 1).
Proof.
  intros He Hf. pose proof (inf_E false) as HE. change (fw false) with 32 in HE. change (fexp false) with 255 in HE. change (fmant 32) with 23 in HE.
  pose proof (val_def false e f) as HV. change (fw false) with 32 in HV. change (fmant 32) with 23 in HV.
  unfold f_val. assert (f_neg 32 (e * 2 ^ 23 + f) = false) as ->. { unfold f_neg. apply Z.leb_gt. change (2 ^ (32 - 1)) with 2147483648. change (2 ^ 23) with 8388608 in *. lia. }
  apply HV; [lia|exact Hf|]. rewrite HE. change (2 ^ 23) with 8388608 in *. lia.
Qed.
Lemma normal_parts x : f_pos_normal x = true -> exists e f, 1 <= e < 255 /\ 0 <= f < 2 ^ 23 /\ x = e * 2 ^ 23 + f /\ l2_exp x = e /\ l2_mant x = 127 * 2 ^ 23 + f.
Proof.
  intros H. apply andb_prop in H. destruct H as [H1 H2]. apply Z.leb_le in H1. apply Z.ltb_lt in H2.
  exists (x / 2 ^ 23), (x mod 2 ^ 23). pose proof (Z.div_mod x (2 ^ 23) ltac:(lia)) as E. pose proof (Z.mod_pos_bound x (2 ^ 23) ltac:(lia)) as B.
  unfold l2_exp, l2_mant. change (2 ^ 23) with 8388608 in *.
  assert (HX : 1 <= x / 8388608 < 255) by lia. split; [exact HX|]. split; [exact B|]. split; [lia|]. split; [apply Z.mod_small; lia|].
  assert (f_neg 32 x = false) as ->. { unfold f_neg. apply Z.leb_gt. change (2 ^ (32 - 1)) with 2147483648. lia. } lia.
Qed.
Lemma pat_finite e f : 0 <= e < 255 -> 0 <= f < 2 ^ 23 -> f_finite 32 (e * 2 ^ 23 + f) = true.
Proof.
  intros He Hf. unfold f_finite, f_mag, f_inf. change (fmant 32) with 23. change (2 ^ (32 - 1)) with 2147483648. change (2 ^ 23) with 8388608 in *.
  apply Z.ltb_lt. rewrite Z.mod_small; lia.
Qed.
Local Open Scope R_scope.
Lemma mant_real f : (0 <= f < 2 ^ 23)%Z -> f_real (127 * 2 ^ 23 + f) = IZR (2 ^ 23 + f) / IZR (2 ^ 23).
Proof.
  intros Hf. unfold f_real. rewrite split_pat by (try exact Hf; lia). change (127 =? 0)%Z with false. cbn iota. rewrite mult_IZR.
  assert (E : U149 = IZR (2 ^ 23) * IZR (2 ^ (127 - 1))) by (unfold U149; rewrite <- mult_IZR; reflexivity). rewrite E.
  field. split; apply IZR_neq; discriminate.
Qed.
Lemma log_real e f : (1 <= e < 255)%Z -> (0 <= f < 2 ^ 23)%Z -> f_real (e * 2 ^ 23 + f) > 0 /\
  ln (f_real (e * 2 ^ 23 + f)) = ln (IZR (2 ^ 23 + f) / IZR (2 ^ 23)) + (IZR e - 127) * ln 2.
Proof.
  intros He Hf. unfold f_real. rewrite split_pat by lia. destruct (Z.eqb_spec e 0); [lia|]. rewrite mult_IZR.
  assert (P1 : 0 < IZR (2 ^ 23 + f)) by (apply IZR_lt; lia). assert (P2 : 0 < IZR (2 ^ (e - 1))) by (apply IZR_lt, Z.pow_pos_nonneg; lia).
  pose proof U149_pos. assert (P3 : 0 < IZR (2 ^ 23)) by (apply IZR_lt; reflexivity).
  split; [apply Rlt_gt, Rdiv_lt_0_compat; [apply Rmult_lt_0_compat|]; assumption|].
  unfold Rdiv. rewrite !ln_mult by (first [assumption | apply Rinv_0_lt_compat; assumption | apply Rmult_lt_0_compat; assumption]).
  rewrite !ln_Rinv by assumption. unfold U149. rewrite !ln_IZR_pow by lia. rewrite minus_IZR. lra.
Qed.
Lemma of_int_real n : (Z.abs n <= 2 ^ 24)%Z -> f_finite 32 (f_of_int 32 n) = true /\ f_real (f_of_int 32 n) = IZR n.
Proof.
  intros Hn. destruct (f_of_int_exact n Hn) as [HF HE]. split; [exact HF|]. unfold f_real. rewrite HE, mult_IZR. fold U149. change (2 ^ fulp 32)%Z with (2 ^ 149)%Z. fold U149.
  field. pose proof U149_pos. lra.
Qed.
Lemma Rabs_b u v e : Rabs (u - v) <= e -> v - e <= u <= v + e.
Proof. intros H. unfold Rabs in H. destruct (Rcase_abs (u - v)); lra. Qed.

Lemma l2_lane_near x : log2_near x (l2_lane x).
Proof.
  intros Hx. destruct (normal_parts x Hx) as (e & f & He & Hf & Ex & Ee & Em). unfold l2_lane. rewrite Ee, Em.
  destruct (log_real e f He Hf) as [_ EL]. rewrite <- Ex in EL.
  pose proof (mant_real f Hf) as EM. set (m := (127 * 2 ^ 23 + f)%Z) in *. set (mu := IZR (2 ^ 23 + f) / IZR (2 ^ 23)) in *.
  assert (Bmu : 1 <= mu < 2).
  { assert (P3 : 0 < IZR (2 ^ 23)) by (apply IZR_lt; reflexivity). assert (E1 : IZR (2 ^ 23 + f) = mu * IZR (2 ^ 23)) by (unfold mu; field; lra).
    assert (IZR (2 ^ 23) <= IZR (2 ^ 23 + f)) by (apply IZR_le; lia). assert (IZR (2 ^ 23 + f) < 2 * IZR (2 ^ 23)) by (rewrite <- mult_IZR; apply IZR_lt; lia). split; nra. }
  assert (Fm : f_finite 32 m = true) by (apply pat_finite; [lia|exact Hf]).
  pose proof (Rabs_b _ _ _ (const_close log2_c2 (-34484362) ltac:(vm_compute; reflexivity))) as C2.
  pose proof (Rabs_b _ _ _ (const_close log2_c1 202466192 ltac:(vm_compute; reflexivity))) as C1.
  pose proof (Rabs_b _ _ _ (const_close log2_c0 67487591 ltac:(vm_compute; reflexivity))) as C0.
  change (10 ^ 8)%Z with 100000000%Z in *.
  unfold l2_poly. set (k2 := f_real log2_c2) in *. set (k1 := f_real log2_c1) in *. set (k0 := f_real log2_c0) in *.
  (* the four steps *)
  destruct (mul_err log2_c2 m 0 ltac:(lia) eq_refl Fm) as [F1 E1].
  { fold k2. rewrite EM, bnd_E by lia. change (2 ^ 0)%Z with 1%Z. apply Rabs_def1; nra. }
  fold k2 in E1. rewrite EM, ulp_E in E1 by lia. change (2 ^ (24 - 0))%Z with 16777216%Z in E1. apply Rabs_b in E1.
  set (x1 := f_mul 32 log2_c2 m) in *.
  assert (A1 : - 34484362 / 100000000 * mu - 4 / 10000000 <= f_real x1 <= - 34484362 / 100000000 * mu + 4 / 10000000) by (split; nra).
  destruct (add_err x1 log2_c1 1 ltac:(lia) F1 eq_refl) as [F2 E2].
  { fold k1. rewrite bnd_E by lia. change (2 ^ 1)%Z with 2%Z. apply Rabs_def1; lra. }
  fold k1 in E2. rewrite ulp_E in E2 by lia. change (2 ^ (24 - 1))%Z with 8388608%Z in E2. apply Rabs_b in E2.
  set (x2 := f_add 32 x1 log2_c1) in *. set (q := - 34484362 / 100000000 * mu + 202466192 / 100000000) in *.
  assert (A2 : q - 7 / 10000000 <= f_real x2 <= q + 7 / 10000000) by (unfold q; split; lra).
  assert (Bq : 1 <= q <= 17 / 10) by (unfold q; split; lra).
  destruct (mul_err x2 m 2 ltac:(lia) F2 Fm) as [F3 E3].
  { rewrite EM, bnd_E by lia. change (2 ^ 2)%Z with 4%Z. apply Rabs_def1; nra. }
  rewrite EM, ulp_E in E3 by lia. change (2 ^ (24 - 2))%Z with 4194304%Z in E3. apply Rabs_b in E3.
  set (x3 := f_mul 32 x2 m) in *.
  assert (A3 : q * mu - 17 / 10000000 <= f_real x3 <= q * mu + 17 / 10000000) by (split; nra).
  assert (Bqm : 1 <= q * mu <= 34 / 10) by (split; nra).
  destruct (sub_err x3 log2_c0 2 ltac:(unfold log2_c0; lia) ltac:(lia) F3 eq_refl) as [F4 E4].
  { fold k0. rewrite bnd_E by lia. change (2 ^ 2)%Z with 4%Z. apply Rabs_def1; lra. }
  fold k0 in E4. rewrite ulp_E in E4 by lia. change (2 ^ (24 - 2))%Z with 4194304%Z in E4. apply Rabs_b in E4.
  set (x4 := f_sub 32 x3 log2_c0) in *.
  assert (A4 : Log2R.poly mu - 22 / 10000000 <= f_real x4 <= Log2R.poly mu + 22 / 10000000).
  { assert (EP : Log2R.poly mu = q * mu - 67487591 / 100000000) by (unfold Log2R.poly, q; field). rewrite EP. split; lra. }
  destruct (of_int_real (e - 128) ltac:(lia)) as [F5 E5]. set (x5 := f_of_int 32 (e - 128)) in *.
  assert (Be : -127 <= IZR (e - 128) <= 126) by (split; apply IZR_le; lia).
  assert (BP : -1 <= Log2R.poly mu <= 3) by (unfold Log2R.poly; fold q; split; nra).
  destruct (add_err x5 x4 8 ltac:(lia) F5 F4) as [F6 E6].
  { rewrite E5, bnd_E by lia. change (2 ^ 8)%Z with 256%Z. apply Rabs_def1; lra. }
  split; [exact F6|]. rewrite E5, ulp_E in E6 by lia. change (2 ^ (24 - 8))%Z with 65536%Z in E6. apply Rabs_b in E6.
  assert (HP : Rabs (Log2R.poly mu - 1 - ln mu * / ln 2) <= 95 / 10000) by (apply poly_log2; lra).
  assert (ER : Rlog2 (f_real x) = ln mu * / ln 2 + (IZR e - 127)).
  { unfold Rlog2. rewrite EL. fold mu. pose proof ln2_pos. field. lra. }
  rewrite ER. rewrite minus_IZR in *. set (L := ln mu * / ln 2) in *.
  assert (HP' : L - 95 / 10000 <= Log2R.poly mu - 1 <= L + 95 / 10000) by (apply Rabs_b; exact HP).
  apply Rabs_le. split; lra.
Qed.
Lemma log2_lane_near x : log2_near x (log2_lane x).
Proof.
  intros Hx. destruct (normal_parts x Hx) as (e & f & He & Hf & Ex & _). unfold log2_lane.
  assert (HF : f_finite 32 x = true) by (rewrite Ex; apply pat_finite; lia).
  assert (HV : (0 < f_val 32 x)%Z).
  { rewrite Ex, split_pat by lia. destruct (Z.eqb_spec e 0); [lia|]. apply Z.mul_pos_pos; [lia|apply Z.pow_pos_nonneg; lia]. }
  assert (E0 : f_val 32 0 = 0%Z) by reflexivity.
  assert (f_eq 32 x 0 = false) as ->. { unfold f_eq. rewrite E0. destruct (Z.eqb_spec (f_val 32 x) 0); [lia|apply andb_false_r]. }
  assert (f_lt 32 x 0 = false) as ->. { unfold f_lt. rewrite E0. destruct (Z.ltb_spec (f_val 32 x) 0); [lia|apply andb_false_r]. }
  rewrite HF, Z.lor_0_r. apply l2_lane_near. exact Hx.
Qed.
Lemma conv_rel_weaken w w' T T' rs rs' op dom g (P : Z -> Z -> Prop) : (forall x, P x (g x)) ->
  conv_rel w w' T T' rs rs' op dom (is g) -> conv_rel w w' T T' rs rs' op dom P.
Proof.
  intros HP H va W L D. destruct (H va W L D) as (r & E & Wr & Lr & F). exists r. repeat (split; [assumption|]).
  clear - F HP. induction F as [|x y l l' Hh _ IH]; [constructor|]. constructor; [|exact IH]. unfold is in Hh. subst y. apply HP.
Qed.

(** C57: every lane that holds a positive normal number gets its base-2 logarithm with an absolute
    error of at most 1/100, for vectors of every length. *)
Theorem log2_accuracy_partial : forall A T, valid_arch A = true -> vsize T -> ftz A false = false ->
  conv_rel 32 32 T T (vregf A T) (vregf A T) (log2_approx A T) all_lanes log2_near.
Proof. intros A T HV HT HZ. apply (conv_rel_weaken _ _ _ _ _ _ _ _ log2_lane); [exact log2_lane_near|apply log2_exact; assumption]. Qed.
Theorem log2_positive_finite_accuracy_partial : forall A T, valid_arch A = true -> vsize T -> ftz A false = false ->
  conv_rel 32 32 T T (vregf A T) (vregf A T) (log2_approx_positive_finite A T) all_lanes log2_near.
Proof. intros A T HV HT HZ. apply (conv_rel_weaken _ _ _ _ _ _ _ _ l2_lane); [exact l2_lane_near|apply log2_positive_finite_exact; assumption]. Qed.
(** the hypotheses are met: 10 and 0.1 *)
Example log2_near_case : f_pos_normal 0x41200000 = true /\ f_pos_normal 0x3dcccccd = true /\ valid_arch arch_avx512f = true /\
  vsize 1024 /\ ftz arch_avx512f false = false.
Proof. repeat split. exists 3%nat. reflexivity. Qed.
