(** f_round, f_round_q and f_root really give the nearest float. *)
From Verif Require Import Proof.FloatsP3 Spec.FloatArith.
From Coq Require Import Znumtheory Zpow_facts.

Lemma rdiv_cases n D : 0 < D -> rdiv n D = n / D /\ 2 * (n mod D) <= D /\ (2 * (n mod D) = D -> Z.even (n / D) = true) \/
  rdiv n D = n / D + 1 /\ D <= 2 * (n mod D) /\ (2 * (n mod D) = D -> Z.even (n / D + 1) = true).
Proof.
  intros HD. unfold rdiv. destruct (Z.ltb_spec (2 * (n mod D)) D).
  { left. repeat split; try lia. }
  destruct (Z.ltb_spec D (2 * (n mod D))).
  { right. repeat split; try lia. }
  destruct (Z.even (n / D)) eqn:Ev.
  - left. repeat split; auto; lia.
  - right. repeat split; try lia. intros _. rewrite Z.even_add, Ev. reflexivity.
Qed.
Lemma rdiv_best n D j : 0 < D ->
  Z.abs (rdiv n D * D - n) <= Z.abs (j * D - n) /\
  (j <> rdiv n D -> Z.abs (rdiv n D * D - n) = Z.abs (j * D - n) -> Z.even (rdiv n D) = true).
Proof.
  intros HD. pose proof (Z.div_mod n D ltac:(lia)) as E. pose proof (Z.mod_pos_bound n D HD) as B.
  pose proof (rdiv_cases n D HD) as C. set (q := n / D) in *. set (r := n mod D) in *. clearbody q r.
  assert (G : j <= q \/ q + 1 <= j) by lia.
  assert (G' : j <= q /\ j * D <= q * D \/ q + 1 <= j /\ (q + 1) * D <= j * D).
  { destruct G; [left|right]; split; auto; apply Z.mul_le_mono_nonneg_r; lia. }
  assert (G2 : j < q -> j * D <= (q - 1) * D) by (intros; apply Z.mul_le_mono_nonneg_r; lia).
  assert (G3 : q + 1 < j -> (q + 2) * D <= j * D) by (intros; apply Z.mul_le_mono_nonneg_r; lia).
  destruct C as [(-> & C1 & C2)|(-> & C1 & C2)].
  - split; [lia|]. intros Hj He. apply C2. lia.
  - split; [lia|]. intros Hj He. apply C2. lia.
Qed.
Lemma rdiv_bounds n D : 0 < D -> n / D <= rdiv n D <= n / D + 1.
Proof. intros HD. destruct (rdiv_cases n D HD) as [(-> & _)|(-> & _)]; lia. Qed.

(** number of exponent patterns of numbers *)
Definition fexp (d : bool) : Z := if d then 2047 else 255.
Section R.
  Variable d : bool.
  Local Notation w := (fw d).
  Local Notation M := (fmant w).
  Local Notation V := f_abs_val.
  Local Notation E := (fexp d).
  Lemma fM : 1 <= M /\ 2 <= E. Proof. split; destruct d; vm_compute; discriminate. Qed.
  Lemma inf_E : f_inf w = E * 2 ^ M. Proof. destruct d; reflexivity. Qed.
  Lemma inf_small : f_inf w < 2 ^ (w - 1). Proof. destruct d; reflexivity. Qed.
  Lemma mag_id m : 0 <= m <= f_inf w -> f_mag w m = m.
  Proof. intros. pose proof inf_small. unfold f_mag. apply Z.mod_small. lia. Qed.
  Lemma PM : 0 < 2 ^ M. Proof. destruct fM. apply Z.pow_pos_nonneg; lia. Qed.
  Lemma val_def e f : 0 <= e -> 0 <= f < 2 ^ M -> e * 2 ^ M + f <= f_inf w ->
    V w (e * 2 ^ M + f) = if e =? 0 then f else (2 ^ M + f) * 2 ^ (e - 1).
  Proof.
    intros He Hf Hi. pose proof PM. unfold f_abs_val. rewrite mag_id by nia.
    rewrite Z.add_comm, Z.div_add, Z.mod_add by lia. rewrite Z.div_small, Z.mod_small by lia. reflexivity.
  Qed.
  Lemma mag_parts m : 0 <= m <= f_inf w -> exists e f, m = e * 2 ^ M + f /\ 0 <= e <= E /\ 0 <= f < 2 ^ M.
  Proof.
    intros Hm. pose proof PM. exists (m / 2 ^ M), (m mod 2 ^ M).
    pose proof (Z.div_mod m (2 ^ M) ltac:(lia)). pose proof (Z.mod_pos_bound m (2 ^ M) ltac:(lia)).
    split; [lia|]. split; auto. split; [apply Z.div_pos; lia|].
    rewrite inf_E in Hm. apply Z.div_le_upper_bound; lia.
  Qed.
  Lemma val_lt_pow e f : 0 <= e -> 0 <= f < 2 ^ M -> e * 2 ^ M + f <= f_inf w -> V w (e * 2 ^ M + f) < 2 ^ (M + e).
  Proof.
    intros He Hf Hi. rewrite val_def by auto. destruct fM. rewrite Z.pow_add_r by lia.
    destruct (Z.eqb_spec e 0) as [->|]. { lia. }
    replace (2 ^ e) with (2 * 2 ^ (e - 1)) by (rewrite <- Z.pow_succ_r by lia; f_equal; lia).
    assert (0 < 2 ^ (e - 1)) by (apply Z.pow_pos_nonneg; lia). nia.
  Qed.
  Lemma val_ge_pow e f : 1 <= e -> 0 <= f < 2 ^ M -> e * 2 ^ M + f <= f_inf w -> 2 ^ (M + e - 1) <= V w (e * 2 ^ M + f).
  Proof.
    intros He Hf Hi. rewrite val_def by (auto; lia). destruct fM. replace (M + e - 1) with (M + (e - 1)) by lia. rewrite Z.pow_add_r by lia.
    destruct (Z.eqb_spec e 0); [lia|]. assert (0 < 2 ^ (e - 1)) by (apply Z.pow_pos_nonneg; lia). nia.
  Qed.
  Lemma val_nonneg m : 0 <= m <= f_inf w -> 0 <= V w m.
  Proof.
    intros Hm. destruct (mag_parts m Hm) as (e & f & -> & He & Hf). rewrite val_def by lia.
    destruct (e =? 0) eqn:?; [lia|]. assert (0 < 2 ^ (e - 1)) by (apply Z.pow_pos_nonneg; lia). pose proof PM. nia.
  Qed.
  Lemma val_mono m m' : 0 <= m -> m < m' -> m' <= f_inf w -> V w m < V w m'.
  Proof.
    intros H0 H1 H2. destruct (mag_parts m ltac:(lia)) as (e & f & -> & He & Hf). destruct (mag_parts m' ltac:(lia)) as (e' & f' & -> & He' & Hf').
    pose proof PM. destruct fM.
    assert (C : e < e' \/ e = e' /\ f < f') by nia. destruct C as [C|(-> & C)].
    - pose proof (val_lt_pow e f ltac:(lia) Hf ltac:(lia)). pose proof (val_ge_pow e' f' ltac:(lia) Hf' ltac:(lia)).
      assert (2 ^ (M + e) <= 2 ^ (M + e' - 1)) by (apply Z.pow_le_mono_r; lia). lia.
    - rewrite !val_def by lia. destruct (e' =? 0) eqn:?; [lia|]. assert (0 < 2 ^ (e' - 1)) by (apply Z.pow_pos_nonneg; lia). nia.
  Qed.
  Lemma val_inj m m' : 0 <= m <= f_inf w -> 0 <= m' <= f_inf w -> V w m = V w m' -> m = m'.
  Proof.
    intros H0 H1 He. destruct (Z.lt_trichotomy m m') as [C|[C|C]]; auto.
    - pose proof (val_mono m m' ltac:(lia) C ltac:(lia)). lia.
    - pose proof (val_mono m' m ltac:(lia) C ltac:(lia)). lia.
  Qed.
  Lemma val_inf : V w (f_inf w) = 2 ^ (M + E - 1).
  Proof.
    pose proof inf_E as I. pose proof PM. destruct fM. replace (f_inf w) with (E * 2 ^ M + 0) by lia. rewrite val_def by lia.
    destruct (Z.eqb_spec E 0); [lia|]. rewrite Z.add_0_r, <- Z.pow_add_r by lia. f_equal. lia.
  Qed.
  Lemma val_round q x : 0 <= q -> 0 <= x <= 2 ^ (M + 1) -> (0 < q -> 2 ^ M <= x) -> q * 2 ^ M + x <= f_inf w ->
    V w (q * 2 ^ M + x) = x * 2 ^ q.
  Proof.
    intros Hq Hx Hx' Hi. pose proof PM. destruct fM. rewrite Z.pow_add_r in Hx by lia. change (2 ^ 1) with 2 in Hx.
    destruct (Z.eq_dec x (2 * 2 ^ M)) as [->|].
    { replace (q * 2 ^ M + 2 * 2 ^ M) with ((q + 2) * 2 ^ M + 0) in * by lia. rewrite val_def by lia.
      destruct (Z.eqb_spec (q + 2) 0); [lia|]. replace (q + 2 - 1) with (1 + q) by lia. rewrite Z.pow_add_r by lia. change (2 ^ 1) with 2. ring. }
    destruct (Z.lt_ge_cases x (2 ^ M)).
    - assert (q = 0) as -> by lia. rewrite val_def by lia. cbn [Z.eqb]. lia.
    - replace (q * 2 ^ M + x) with ((q + 1) * 2 ^ M + (x - 2 ^ M)) in * by lia. rewrite val_def by lia.
      destruct (Z.eqb_spec (q + 1) 0); [lia|]. replace (q + 1 - 1) with q by lia. ring.
  Qed.
  Lemma val_multiple m q : 0 <= m <= f_inf w -> 0 <= q -> (exists j, 0 <= j /\ V w m = j * 2 ^ q) \/ 0 < q /\ V w m < 2 ^ (M + q).
  Proof.
    intros Hm Hq. destruct (Z.eq_dec q 0) as [->|]. { left. exists (V w m). split; [apply val_nonneg; auto|]. cbn. lia. }
    destruct (mag_parts m Hm) as (e & f & -> & He & Hf). pose proof PM. destruct fM.
    destruct (Z.le_gt_cases (q + 1) e).
    - left. exists ((2 ^ M + f) * 2 ^ (e - 1 - q)). split. { assert (0 < 2 ^ (e - 1 - q)) by (apply Z.pow_pos_nonneg; lia). nia. }
      rewrite val_def by lia. destruct (Z.eqb_spec e 0); [lia|].
      rewrite <- Z.mul_assoc, <- Z.pow_add_r by lia. do 2 f_equal. lia.
    - right. split; [lia|]. pose proof (val_lt_pow e f ltac:(lia) Hf ltac:(lia)).
      assert (2 ^ (M + e) <= 2 ^ (M + q)) by (apply Z.pow_le_mono_r; lia). lia.
  Qed.
  Lemma even_mag q x : Z.even (q * 2 ^ M + x) = Z.even x.
  Proof.
    destruct fM. rewrite Z.even_add. replace (2 ^ M) with (2 * 2 ^ (M - 1)) by (rewrite <- Z.pow_succ_r by lia; f_equal; lia).
    rewrite Z.even_mul, Z.even_mul. cbn [Z.even orb]. rewrite Bool.orb_true_r. destruct (Z.even x); reflexivity.
  Qed.
  Theorem f_round_q_nearest n D : 0 <= n -> 0 < D -> nearest_mag w n D (f_round_q w n D).
  Proof.
    intros Hn HD. unfold f_round_q. set (L := n / D). set (q := Z.max 0 (Z.log2 L - M)).
    assert (HL : 0 <= L) by (apply Z.div_pos; lia).
    pose proof PM as PM. destruct fM as [M1 E2].
    assert (Hq : 0 <= q) by lia.
    assert (B1 : L < 2 ^ (M + q + 1)).
    { destruct (Z.eq_dec L 0) as [->|]; [apply Z.pow_pos_nonneg; lia|]. destruct (Z.log2_spec L ltac:(lia)) as [_ U].
      eapply Z.lt_le_trans; [exact U|]. apply Z.pow_le_mono_r; lia. }
    assert (B2 : 0 < q -> 2 ^ (M + q) <= L).
    { intros Hp. assert (L <> 0). { intros ->. cbn in q. lia. } destruct (Z.log2_spec L ltac:(lia)) as [U _].
      replace (M + q) with (Z.log2 L) by lia. exact U. }
    clearbody q. assert (Pq : 0 < 2 ^ q) by (apply Z.pow_pos_nonneg; lia).
    assert (HDq : 0 < D * 2 ^ q) by nia.
    assert (Q0 : n / (D * 2 ^ q) = L / 2 ^ q) by (unfold L; rewrite Z.div_div by lia; reflexivity).
    pose proof (rdiv_bounds n (D * 2 ^ q) HDq) as RB. rewrite Q0 in RB.
    pose proof (rdiv_best n (D * 2 ^ q)) as BEST.
    set (x := rdiv n (D * 2 ^ q)) in *. clearbody x.
    assert (X1 : L / 2 ^ q < 2 ^ (M + 1)).
    { apply Z.div_lt_upper_bound; [lia|]. rewrite <- Z.pow_add_r by lia. replace (q + (M + 1)) with (M + q + 1) by lia. exact B1. }
    assert (X2 : 0 < q -> 2 ^ M <= L / 2 ^ q).
    { intros Hp. apply Z.div_le_lower_bound; [lia|]. rewrite <- Z.pow_add_r by lia. rewrite Z.add_comm. auto. }
    assert (X3 : 0 <= L / 2 ^ q) by (apply Z.div_pos; lia).
    assert (LD : L * D <= n) by (unfold L; pose proof (Z.mul_div_le n D HD); lia).
    assert (LD' : forall t, L < t -> n < t * D). { intros t Ht. unfold L in Ht. pose proof (Z.mod_pos_bound n D HD). pose proof (Z.div_mod n D ltac:(lia)). nia. }
    clearbody L.
    destruct (Z.le_gt_cases (q * 2 ^ M + x) (f_inf w)) as [Hi|Hi].
    - rewrite Z.min_r by lia. assert (VR : V w (q * 2 ^ M + x) = x * 2 ^ q) by (apply val_round; auto; lia).
      assert (RN : 0 <= q * 2 ^ M + x) by nia.
      split; [lia|]. intros m Hm. rewrite VR, even_mag.
      replace (x * 2 ^ q * D) with (x * (D * 2 ^ q)) by ring.
      destruct (val_multiple m q Hm Hq) as [(j & Hj & Ej)|(Hp & Hl)].
      + rewrite Ej. replace (j * 2 ^ q * D) with (j * (D * 2 ^ q)) by ring. destruct (BEST j HDq) as [B B']. split; auto.
        intros Hne. apply B'. intros ->. apply Hne. apply val_inj; auto. lia.
      + destruct (BEST (2 ^ M) HDq) as [B _]. specialize (B2 Hp).
        replace (2 ^ M * (D * 2 ^ q)) with (2 ^ (M + q) * D) in B by (rewrite Z.pow_add_r by lia; ring).
        assert (2 ^ (M + q) * D <= n) by nia. assert (V w m * D < 2 ^ (M + q) * D) by nia. split; lia.
    - rewrite Z.min_l by lia. pose proof inf_E as IE.
      assert (NV : 2 ^ (M + E - 1) * D <= n).
      { destruct (Z.lt_ge_cases L (2 ^ (M + E - 1))) as [C|C]; [exfalso|nia].
        rewrite Z.pow_add_r in X1 by lia. change (2 ^ 1) with 2 in X1.
        destruct (Z.eq_dec q 0) as [->|]; [nia|]. assert (q < E - 1).
        { specialize (B2 ltac:(lia)). assert (2 ^ (M + q) < 2 ^ (M + E - 1)) as P by lia. apply Z.pow_lt_mono_r_iff in P; lia. }
        nia. }
      split; [nia|]. intros m Hm. rewrite val_inf. destruct (Z.eq_dec m (f_inf w)) as [->|].
      + rewrite val_inf. split; [lia|]. intros C. exfalso. apply C. reflexivity.
      + pose proof (val_mono m (f_inf w) ltac:(lia) ltac:(lia) ltac:(lia)) as LT. rewrite val_inf in LT.
        assert (V w m * D < 2 ^ (M + E - 1) * D) by nia. split; lia.
  Qed.
  Lemma f_round_is_q n k : 0 <= n -> 0 <= k -> f_round w n k = f_round_q w n (2 ^ k).
  Proof.
    intros Hn Hk. unfold f_round, f_round_q. destruct fM.
    assert (Eq : Z.max 0 (Z.log2 n - k - M) = Z.max 0 (Z.log2 (n / 2 ^ k) - M)).
    { destruct (Z.eq_dec n 0) as [->|]. { rewrite Z.div_0_l by (apply Z.pow_nonzero; lia). change (Z.log2 0) with 0. lia. }
      rewrite <- Z.shiftr_div_pow2 by lia. rewrite Z.log2_shiftr by lia. lia. }
    rewrite Eq. set (q := Z.max 0 (Z.log2 (n / 2 ^ k) - M)). unfold rne, rdiv. rewrite <- Z.pow_add_r by lia. reflexivity.
  Qed.
  Theorem f_round_nearest n k : 0 <= n -> 0 <= k -> nearest_mag w n (2 ^ k) (f_round w n k).
  Proof. intros. rewrite f_round_is_q by auto. apply f_round_q_nearest; auto. apply Z.pow_pos_nonneg; lia. Qed.

  (** square roots of multiples mu * 2^t of a (M+1)-bit number *)
  Lemma sqrt_odd mu t s k : 0 < mu < 2 ^ (M + 1) -> 0 <= t -> 2 ^ M <= s -> 1 <= k ->
    4 * (mu * 2 ^ t) <> (2 * s + 1) ^ 2 * 4 ^ k.
  Proof.
    intros Hm Ht Hs Hk He. destruct fM. pose proof PM.
    assert (Dv : ((2 * s + 1) ^ 2 | mu)).
    { apply (Gauss ((2 * s + 1) ^ 2) (2 ^ (t + 2)) mu).
      - exists (4 ^ k). rewrite Z.pow_add_r by lia. change (2 ^ 2) with 4. lia.
      - apply rel_prime_Zpower_r; [lia|]. apply rel_prime_sym. apply rel_prime_Zpower_r; [lia|].
        apply prime_rel_prime; [apply prime_2|]. intros (z & Hz). lia. }
    apply Z.divide_pos_le in Dv; [|lia]. rewrite Z.pow_add_r in Hm by lia. change (2 ^ 1) with 2 in Hm. nia.
  Qed.
  Theorem f_root_nearest mu t : let n := mu * 2 ^ t in 0 < mu < 2 ^ (M + 1) -> 0 <= t ->
    2 ^ (2 * M + 2) <= n -> n < 2 ^ (2 * (M + E - 2)) -> nearest_root w n (f_root w n).
  Proof.
    intros n Hmu Ht Hlo Hhi. unfold f_root. destruct fM as [M1 E2]. pose proof PM as PM.
    set (S := Z.sqrt n). set (q := Z.log2 S - M).
    assert (Pn : 0 < n) by (assert (0 < 2 ^ (2 * M + 2)) by (apply Z.pow_pos_nonneg; lia); lia).
    destruct (Z.sqrt_spec n ltac:(lia)) as [S1 S2]. fold S in S1, S2.
    assert (SL : 2 ^ (M + 1) <= S).
    { destruct (Z.lt_ge_cases S (2 ^ (M + 1))) as [C|C]; auto. exfalso.
      assert (0 <= S) by apply Z.sqrt_nonneg.
      replace (2 * M + 2) with ((M + 1) + (M + 1)) in Hlo by lia. rewrite Z.pow_add_r in Hlo by lia. nia. }
    assert (SU : S < 2 ^ (M + E - 2)).
    { destruct (Z.lt_ge_cases S (2 ^ (M + E - 2))) as [C|C]; auto. exfalso.
      replace (2 * (M + E - 2)) with ((M + E - 2) + (M + E - 2)) in Hhi by lia. rewrite Z.pow_add_r in Hhi by lia.
      assert (0 < 2 ^ (M + E - 2)) by (apply Z.pow_pos_nonneg; lia). nia. }
    assert (SP : 0 < S) by (assert (0 < 2 ^ (M + 1)) by (apply Z.pow_pos_nonneg; lia); lia).
    assert (Q1 : 1 <= q). { unfold q. apply Z.log2_le_pow2 in SL; lia. }
    destruct (Z.log2_spec S SP) as [G1 G2]. replace (Z.log2 S) with (M + q) in G1, G2 by lia.
    assert (Q2 : q <= E - 3).
    { unfold q. assert (Z.log2 S < M + E - 2) by (apply Z.log2_lt_pow2; lia). lia. }
    clearbody q.
    set (s := Z.sqrt (n / 4 ^ q)). assert (P4 : 0 < 4 ^ q) by (apply Z.pow_pos_nonneg; lia).
    assert (E4 : 4 ^ q = 2 ^ q * 2 ^ q) by (change 4 with (2 * 2); rewrite Z.pow_mul_l; reflexivity).
    assert (NN : 0 <= n / 4 ^ q) by (apply Z.div_pos; lia).
    destruct (Z.sqrt_spec (n / 4 ^ q) NN) as [T1 T2]. fold s in T1, T2.
    assert (U1 : s * s * 4 ^ q <= n). { pose proof (Z.mul_div_le n (4 ^ q) P4). nia. }
    assert (U2 : n < (s + 1) * (s + 1) * 4 ^ q).
    { pose proof (Z.mod_pos_bound n (4 ^ q) P4). pose proof (Z.div_mod n (4 ^ q) ltac:(lia)). replace (Z.succ s) with (s + 1) in T2 by lia. nia. }
    assert (s0 : 0 <= s) by apply Z.sqrt_nonneg.
    assert (Pq : 0 < 2 ^ q) by (apply Z.pow_pos_nonneg; lia).
    rewrite Z.pow_add_r in G1 by lia. replace (Z.succ (M + q)) with (M + 1 + q) in G2 by lia. rewrite !Z.pow_add_r in G2 by lia. change (2 ^ 1) with 2 in G2.
    assert (s1 : 2 ^ M <= s).
    { destruct (Z.lt_ge_cases s (2 ^ M)) as [C|C]; auto. exfalso.
      assert ((s + 1) * (s + 1) <= 2 ^ M * 2 ^ M) by nia. rewrite E4 in U2.
      assert ((s + 1) * (s + 1) * (2 ^ q * 2 ^ q) <= 2 ^ M * 2 ^ M * (2 ^ q * 2 ^ q)) by nia.
      assert ((2 ^ M * 2 ^ q) * (2 ^ M * 2 ^ q) <= S * S) by nia. nia. }
    assert (s2 : s < 2 * 2 ^ M).
    { destruct (Z.lt_ge_cases s (2 * 2 ^ M)) as [C|C]; auto. exfalso. rewrite E4 in U1.
      assert ((2 * 2 ^ M) * (2 * 2 ^ M) <= s * s) by nia.
      assert ((2 * 2 ^ M) * (2 * 2 ^ M) * (2 ^ q * 2 ^ q) <= s * s * (2 ^ q * 2 ^ q)) by nia.
      assert ((S + 1) * (S + 1) <= (2 ^ M * 2 * 2 ^ q) * (2 ^ M * 2 * 2 ^ q)) by nia. replace (Z.succ S) with (S + 1) in S2 by lia. nia. }
    clearbody s. clear T1 T2 NN. clear S1 S2 G1 G2 SL SU SP. clearbody S. clear S.
    set (x := if _ <? _ then _ else _).
    assert (HX : x = s /\ 4 * n < (2 * s + 1) ^ 2 * 4 ^ q \/ x = s + 1 /\ (2 * s + 1) ^ 2 * 4 ^ q < 4 * n).
    { unfold x. destruct (Z.ltb_spec ((2 * s + 1) ^ 2 * 4 ^ q) (4 * n)); [right; auto|]. left. split; auto.
      pose proof (sqrt_odd mu t s q Hmu Ht s1 Q1) as O. unfold n in *. lia. }
    clearbody x. rewrite Z.pow_2_r in HX.
    assert (X1 : 2 ^ M <= x <= 2 * 2 ^ M) by lia.
    pose proof inf_E as IE.
    assert (Hi : q * 2 ^ M + x < f_inf w) by nia.
    assert (VR : V w (q * 2 ^ M + x) = x * 2 ^ q). { apply val_round; try lia. rewrite Z.pow_add_r by lia. change (2 ^ 1) with 2. lia. }
    split; [nia|]. intros m Hm. rewrite VR. pose proof (val_nonneg m Hm) as VN.
    assert (K : forall j, 0 <= j -> (x < j -> 4 * n < (x + j) * (x + j) * 4 ^ q) /\ (j < x -> (x + j) * (x + j) * 4 ^ q < 4 * n)).
    { intros j Hj. destruct HX as [(-> & H)|(-> & H)]; split; intros C.
      - assert ((2 * s + 1) * (2 * s + 1) <= (s + j) * (s + j)) by nia. nia.
      - assert ((s + j) * (s + j) <= (2 * s - 1) * (2 * s - 1)) by nia.
        assert ((2 * s - 1) * (2 * s - 1) < 4 * (s * s)) by nia. nia.
      - assert ((2 * s + 3) * (2 * s + 3) <= (s + 1 + j) * (s + 1 + j)) by nia.
        assert (4 * ((s + 1) * (s + 1)) < (2 * s + 3) * (2 * s + 3)) by nia. nia.
      - assert ((s + 1 + j) * (s + 1 + j) <= (2 * s + 1) * (2 * s + 1)) by nia. nia. }
    assert (SQ : forall a b, (a * 2 ^ q + b * 2 ^ q) ^ 2 = (a + b) * (a + b) * 4 ^ q) by (intros; rewrite E4; ring).
    destruct (val_multiple m q Hm ltac:(lia)) as [(j & Hj & Ej)|(_ & Hl)].
    - rewrite Ej, SQ. destruct (K j Hj) as [K1 K2]. split; intros C; [apply K1|apply K2]; nia.
    - rewrite Z.pow_add_r in Hl by lia. split; intros C; [exfalso; nia|].
      destruct (Z.eq_dec x (2 ^ M)) as [Ex|Nx].
      + assert (x = s) by lia.
        assert ((x * 2 ^ q + V w m) ^ 2 < (x * 2 ^ q + x * 2 ^ q) ^ 2). { rewrite !Z.pow_2_r. nia. }
        rewrite SQ in *. nia.
      + destruct (K (2 ^ M) ltac:(lia)) as [_ K2]. specialize (K2 ltac:(lia)). rewrite <- SQ in K2.
        assert ((x * 2 ^ q + V w m) ^ 2 <= (x * 2 ^ q + 2 ^ M * 2 ^ q) ^ 2). { rewrite !Z.pow_2_r. nia. } lia.
  Qed.
End R.
