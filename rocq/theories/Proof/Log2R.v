(** How far the quadratic polynomial of log2_approx is from the base-2 logarithm on [1, 2]. *)
From Coq Require Import Bool Reals Lra Lia ZArith Psatz.
Local Open Scope bool_scope.
Local Open Scope R_scope.

Lemma ln_upper a x : 0 < a -> 0 < x -> ln x <= ln a + (x - a) / a.
Proof.
  intros Ha Hx. assert (H : 0 < x / a) by (apply Rdiv_lt_0_compat; lra).
  assert (E : ln x = ln a + ln (x / a)) by (rewrite <- ln_mult by lra; f_equal; field; lra).
  pose proof (exp_ineq1_le (ln (x / a))) as G. rewrite exp_ln in G by exact H.
  replace ((x - a) / a) with (x / a - 1) by (field; lra). lra.
Qed.
Lemma ln_lower a x : 0 < a -> 0 < x -> ln a + (x - a) / x <= ln x.
Proof. intros Ha Hx. pose proof (ln_upper x a Hx Ha). replace ((x - a) / x) with (- ((a - x) / x)) by (field; lra). lra. Qed.
Lemma ln_pow_nat x n : 0 < x -> ln (x ^ n) = INR n * ln x.
Proof.
  intros Hx. induction n as [|n IH]; [cbn [pow INR]; rewrite ln_1; lra|].
  rewrite S_INR. cbn [pow]. rewrite ln_mult by (auto using pow_lt). rewrite IH. lra.
Qed.
Lemma ln_IZR_pow a n : (0 < a)%Z -> (0 <= n)%Z -> ln (IZR (a ^ n)) = IZR n * ln (IZR a).
Proof.
  intros Ha Hn. rewrite <- (Z2Nat.id n) at 1 by exact Hn. rewrite <- pow_IZR, ln_pow_nat by (apply IZR_lt; exact Ha).
  rewrite INR_IZR_INZ, Z2Nat.id by exact Hn. reflexivity.
Qed.
Lemma ln2_pos : 0 < ln 2. Proof. rewrite <- ln_1. apply ln_increasing; lra. Qed.
(** rational bounds of the logarithm, from integer inequalities *)
Lemma log2_bound n d p q : (0 < n)%Z -> (0 < d)%Z -> (0 <= p)%Z -> (0 < q)%Z ->
  ((2 ^ p * d ^ q <=? n ^ q) && (n ^ q <=? 2 ^ (p + 1) * d ^ q))%Z = true ->
  IZR p * ln 2 <= IZR q * ln (IZR n / IZR d) <= (IZR p + 1) * ln 2.
Proof.
  intros Hn Hd Hp Hq H. apply andb_prop in H. destruct H as [H1 H2]. apply Z.leb_le in H1, H2.
  assert (Pn : (0 < n ^ q)%Z) by (apply Z.pow_pos_nonneg; lia). assert (Pd : (0 < d ^ q)%Z) by (apply Z.pow_pos_nonneg; lia).
  assert (P2 : (0 < 2 ^ p)%Z) by (apply Z.pow_pos_nonneg; lia). assert (P3 : (0 < 2 ^ (p + 1))%Z) by (apply Z.pow_pos_nonneg; lia).
  assert (mono : forall u v, (0 < u)%Z -> (u <= v)%Z -> ln (IZR u) <= ln (IZR v)).
  { intros u v Hu Huv. apply IZR_le in Huv. apply IZR_lt in Hu. destruct Huv as [Huv|Huv]; [left; apply ln_increasing; assumption|rewrite Huv; right; reflexivity]. }
  apply mono in H1; [|apply Z.mul_pos_pos; assumption]. apply mono in H2; [|assumption].
  rewrite mult_IZR, ln_mult in H1, H2 by (apply IZR_lt; assumption). rewrite !ln_IZR_pow in H1, H2 by lia.
  unfold Rdiv. rewrite ln_mult by (try apply Rinv_0_lt_compat; apply IZR_lt; assumption). rewrite ln_Rinv by (apply IZR_lt; assumption).
  rewrite plus_IZR in H2. lra.
Qed.
Lemma inv_ln2 : 1438 / 1000 <= / ln 2 <= 1446 / 1000.
Proof.
  pose proof (log2_bound 513 512 1 356) as H. pose proof ln2_pos as P2.
  assert (B1 : IZR 355 * ln (513 / 512) <= ln 2).
  { assert (E : (513 ^ 355 <= 2 ^ 1 * 512 ^ 355)%Z) by (apply Z.leb_le; vm_compute; reflexivity).
    apply IZR_le in E. assert (ln (IZR (513 ^ 355)) <= ln (IZR (2 ^ 1 * 512 ^ 355))) as G.
    { destruct E as [E|E]; [left; apply ln_increasing; [apply IZR_lt; vm_compute; reflexivity|exact E]|rewrite E; right; reflexivity]. }
    rewrite mult_IZR, ln_mult, !ln_IZR_pow in G by (try lia; apply IZR_lt; vm_compute; reflexivity).
    unfold Rdiv. rewrite ln_mult, ln_Rinv by lra. lra. }
  assert (B2 : ln 2 <= IZR 356 * ln (513 / 512)).
  { assert (E : (2 ^ 1 * 512 ^ 356 <= 513 ^ 356)%Z) by (apply Z.leb_le; vm_compute; reflexivity).
    apply IZR_le in E. assert (ln (IZR (2 ^ 1 * 512 ^ 356)) <= ln (IZR (513 ^ 356))) as G.
    { destruct E as [E|E]; [left; apply ln_increasing; [apply IZR_lt; vm_compute; reflexivity|exact E]|rewrite E; right; reflexivity]. }
    rewrite mult_IZR, ln_mult, !ln_IZR_pow in G by (try lia; apply IZR_lt; vm_compute; reflexivity).
    unfold Rdiv. rewrite ln_mult, ln_Rinv by lra. lra. }
  pose proof (ln_upper 1 (513 / 512) ltac:(lra) ltac:(lra)) as U. pose proof (ln_lower 1 (513 / 512) ltac:(lra) ltac:(lra)) as W.
  rewrite ln_1 in U, W. assert (L1 : 355 / 513 <= ln 2) by lra. assert (L2 : ln 2 <= 356 / 512) by lra. clear H.
  split.
  - apply Rle_trans with (/ (356 / 512)); [lra|]. apply Rinv_le_contravar; lra.
  - apply Rle_trans with (/ (355 / 513)); [|lra]. apply Rinv_le_contravar; lra.
Qed.

Definition poly (mu : R) : R := (- (34484362 / 100000000) * mu + 202466192 / 100000000) * mu - 67487591 / 100000000.
(** one of sixteen pieces: a is the middle, p/512 the logarithm of a rounded down *)
Definition piece_ok (l2 u2 a p : R) : Prop := forall mu, l2 <= mu <= u2 ->
  poly mu - 1 - p / 512 - ((mu - a) / a - ((mu - a) / a) * ((mu - a) / a) * (32 / 31)) * (1442 / 1000) + 15 / 100000 <= 95 / 10000 /\
  - (95 / 10000) <= poly mu - 1 - (p + 1) / 512 - (mu - a) / a * (1442 / 1000) - 13 / 100000.
Lemma piece l u a n p mu : 0 < l -> l <= mu <= u -> a = IZR n / 32 -> (0 < n)%Z -> (0 <= p)%Z -> - (1 / 32) <= (l - a) / a -> (u - a) / a <= 1 / 32 ->
  ((2 ^ p * 32 ^ 512 <=? n ^ 512) && (n ^ 512 <=? 2 ^ (p + 1) * 32 ^ 512))%Z = true ->
  piece_ok l u a (IZR p) -> Rabs (poly mu - 1 - ln mu * / ln 2) <= 95 / 10000.
Proof.
  intros Hl Hmu Ea Hn Hp Tl Tu HB HP. pose proof (log2_bound n 32 p 512 Hn ltac:(lia) Hp ltac:(lia) HB) as B. rewrite <- Ea in B.
  pose proof ln2_pos as P2. pose proof inv_ln2 as PI. assert (Pi : 0 < / ln 2) by lra.
  assert (Pa : 0 < a) by (rewrite Ea; apply Rdiv_lt_0_compat; [apply IZR_lt; exact Hn|lra]).
  set (t := (mu - a) / a).
  assert (Et : forall v, (v - a) / a = v * / a - 1) by (intros; field; lra).
  assert (Ht : - (1 / 32) <= t <= 1 / 32).
  { unfold t. assert (0 < / a) by (apply Rinv_0_lt_compat; exact Pa). rewrite !Et in *. nra. }
  pose proof (ln_upper a mu Pa ltac:(lra)) as U. fold t in U. pose proof (ln_lower a mu Pa ltac:(lra)) as W.
  assert (Emu : mu = a * (1 + t)) by (unfold t; field; lra).
  assert (Wt : t - t * t * (32 / 31) <= (mu - a) / mu).
  { rewrite Emu. replace ((a * (1 + t) - a) / (a * (1 + t))) with (t - t * t * / (1 + t)) by (field; split; lra).
    assert (/ (1 + t) <= 32 / 31) by (replace (32 / 31) with (/ (31 / 32)) by lra; apply Rinv_le_contravar; lra).
    assert (0 <= t * t) by nra. nra. }
  set (I := / ln 2) in *. assert (EI : ln 2 * I = 1) by (unfold I; field; lra).
  assert (BL : IZR p / 512 <= ln a * I <= (IZR p + 1) / 512).
  { destruct B as [B1 B2]. apply (Rmult_le_compat_r I) in B1; [|lra]. apply (Rmult_le_compat_r I) in B2; [|lra].
    rewrite Rmult_assoc, EI in B1. rewrite (Rmult_assoc (IZR p + 1)), EI in B2. rewrite Rmult_assoc in B1, B2. lra. }
  assert (S1 : - (13 / 100000) <= t * (I - 1442 / 1000) <= 13 / 100000) by (split; nra).
  assert (S2 : - (15 / 100000) <= (t - t * t * (32 / 31)) * (I - 1442 / 1000) <= 15 / 100000).
  { set (v := t - t * t * (32 / 31)). assert (- (33 / 1000) <= v <= 33 / 1000) by (unfold v; split; nra). split; nra. }
  destruct (HP mu Hmu) as [H1 H2]. fold t in H1, H2.
  assert (UI : ln mu * I <= ln a * I + t * I) by nra.
  assert (WI : ln a * I + (t - t * t * (32 / 31)) * I <= ln mu * I) by nra.
  apply Rabs_le. split; lra.
Qed.

Ltac do_piece l u n p :=
  apply (piece l u (IZR n / 32) n p); [lra|lra|reflexivity|lia|lia|lra|lra|vm_compute; reflexivity|];
  intros m Hm; unfold poly; split; nra.
Theorem poly_log2 mu : 1 <= mu <= 2 -> Rabs (poly mu - 1 - ln mu * / ln 2) <= 95 / 10000.
Proof.
  intros H.
  destruct (Rle_dec mu (17 / 16)). { do_piece 1 (17 / 16) 33%Z 22%Z. }
  destruct (Rle_dec mu (18 / 16)). { do_piece (17 / 16) (18 / 16) 35%Z 66%Z. }
  destruct (Rle_dec mu (19 / 16)). { do_piece (18 / 16) (19 / 16) 37%Z 107%Z. }
  destruct (Rle_dec mu (20 / 16)). { do_piece (19 / 16) (20 / 16) 39%Z 146%Z. }
  destruct (Rle_dec mu (21 / 16)). { do_piece (20 / 16) (21 / 16) 41%Z 183%Z. }
  destruct (Rle_dec mu (22 / 16)). { do_piece (21 / 16) (22 / 16) 43%Z 218%Z. }
  destruct (Rle_dec mu (23 / 16)). { do_piece (22 / 16) (23 / 16) 45%Z 251%Z. }
  destruct (Rle_dec mu (24 / 16)). { do_piece (23 / 16) (24 / 16) 47%Z 283%Z. }
  destruct (Rle_dec mu (25 / 16)). { do_piece (24 / 16) (25 / 16) 49%Z 314%Z. }
  destruct (Rle_dec mu (26 / 16)). { do_piece (25 / 16) (26 / 16) 51%Z 344%Z. }
  destruct (Rle_dec mu (27 / 16)). { do_piece (26 / 16) (27 / 16) 53%Z 372%Z. }
  destruct (Rle_dec mu (28 / 16)). { do_piece (27 / 16) (28 / 16) 55%Z 400%Z. }
  destruct (Rle_dec mu (29 / 16)). { do_piece (28 / 16) (29 / 16) 57%Z 426%Z. }
  destruct (Rle_dec mu (30 / 16)). { do_piece (29 / 16) (30 / 16) 59%Z 451%Z. }
  destruct (Rle_dec mu (31 / 16)). { do_piece (30 / 16) (31 / 16) 61%Z 476%Z. }
  do_piece (31 / 16) 2 63%Z 500%Z.
Qed.
