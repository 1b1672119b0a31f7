(** C18: transpose2 and transpose4. *)
From Verif Require Import Proof.TransposeP Spec.Transpose.

(** a vector whose registers are selections of the registers of other vectors *)
Lemma lanes_of_nth w s n L vr (vs : list vec) m : gok w (rbits s) n = true -> in_range n L = true ->
  vs <> [] -> Forall (fun v => length v = m) vs -> length vr = m ->
  (forall i, (i < m)%nat -> nth i vr 0 = lsh w (rbits s) n L (map (fun v => nth i v 0) vs)) ->
  lanes w s vr = grouped n L (map (lanes w s) vs).
Proof.
  intros Hg HI Hne HL Hm HE.
  destruct (gok_spec _ _ _ Hg) as (Hw & Hp & HR & Hn & E & E2).
  destruct (wok_spec _ _ Hw) as (_ & _ & E3 & En).
  assert (length (hd [] (map (lanes w s) vs)) = (nl w (rbits s) * m)%nat) as HH.
  { destruct vs as [|v vs]; [contradiction|]. cbn [map hd]. rewrite lanes_length. inversion HL; subst. congruence. }
  apply (nth_ext _ _ 0 0).
  - rewrite grouped_length, HH, lanes_length, Hm. reflexivity.
  - intros i Hi. rewrite lanes_length, Hm in Hi.
    rewrite nth_grouped by (rewrite HH; auto).
    rewrite <- (Nat2Z.id i) at 1. rewrite nth_lanes by (auto; lia).
    set (N := rbits s / w) in *.
    assert (0 <= Z.of_nat i / N < Z.of_nat m).
    { split; [apply Z.div_pos; nia|apply Z.div_lt_upper_bound; nia]. }
    rewrite HE by lia.
    apply lsh_pick; auto; try lia.
    + rewrite map_length. reflexivity.
    + intros k Hk. rewrite (nth_map' _ _ _ []) by auto. reflexivity.
Qed.
Lemma vec_ref2_nth f g h a0 : forall a1, length a0 = length a1 ->
  (forall x y, In x a0 -> In y a1 -> f x y = Ok (g x y, h x y)) ->
  exists r0 r1, vec_ref2 f a0 a1 = Ok (r0, r1) /\ length r0 = length a0 /\ length r1 = length a0 /\
    forall i, (i < length a0)%nat -> nth i r0 0 = g (nth i a0 0) (nth i a1 0) /\ nth i r1 0 = h (nth i a0 0) (nth i a1 0).
Proof.
  induction a0 as [|x a0 IH]; intros [|y a1] HL HF; try discriminate HL.
  - exists [], []. split; [reflexivity|]. split; [reflexivity|]. split; [reflexivity|]. cbn. lia.
  - destruct (IH a1 ltac:(cbn in HL; lia)) as (r0 & r1 & E & L0 & L1 & HN).
    { intros; apply HF; right; auto. }
    exists (g x y :: r0), (h x y :: r1). cbn [vec_ref2]. rewrite HF, E by (left; auto). cbn [bind fst snd length].
    split; [reflexivity|]. split; [lia|]. split; [lia|].
    intros [|i] Hi; cbn [nth]; [auto|]. apply HN. lia.
Qed.
Lemma vec_ref4_nth f g0 g1 g2 g3 a0 : forall a1 a2 a3, length a1 = length a0 -> length a2 = length a0 -> length a3 = length a0 ->
  (forall x y z t, In x a0 -> In y a1 -> In z a2 -> In t a3 -> f x y z t = Ok (g0 x y z t, g1 x y z t, g2 x y z t, g3 x y z t)) ->
  exists r0 r1 r2 r3, vec_ref4 f a0 a1 a2 a3 = Ok (r0, r1, r2, r3) /\
    length r0 = length a0 /\ length r1 = length a0 /\ length r2 = length a0 /\ length r3 = length a0 /\
    forall i, (i < length a0)%nat -> 
      let c g := g (nth i a0 0) (nth i a1 0) (nth i a2 0) (nth i a3 0) in
      nth i r0 0 = c g0 /\ nth i r1 0 = c g1 /\ nth i r2 0 = c g2 /\ nth i r3 0 = c g3.
Proof.
  induction a0 as [|x a0 IH]; intros [|y a1] [|z a2] [|t a3] H1 H2 H3 HF; try discriminate.
  - exists [], [], [], []. cbn. repeat split; lia.
  - destruct (IH a1 a2 a3) as (r0 & r1 & r2 & r3 & E & L0 & L1 & L2 & L3 & HN); try (cbn in *; lia).
    { intros; apply HF; right; auto. }
    exists (g0 x y z t :: r0), (g1 x y z t :: r1), (g2 x y z t :: r2), (g3 x y z t :: r3).
    cbn [vec_ref4]. rewrite HF, E by (left; auto). cbn [bind length].
    split; [reflexivity|]. do 4 (split; [lia|]).
    intros [|i] Hi; cbn [nth]; [auto|]. apply HN. lia.
Qed.
(** the rows of lanes a selection [p_transpose] describes *)
Lemma grouped_transposed w s n (vs rs : list vec) m : gok w (rbits s) (Z.of_nat n) = true ->
  length vs = n -> length rs = n -> (0 < n)%nat ->
  Forall (fun v => length v = m) vs -> Forall (fun v => length v = m) rs ->
  (forall i, (i < n)%nat -> lanes w s (nth i rs []) = grouped (Z.of_nat n) (p_transpose (Z.of_nat i)) (map (lanes w s) vs)) ->
  transposed n (map (lanes w s) vs) (map (lanes w s) rs).
Proof.
  intros Hg Hv Hr Hn Fv Fr HL.
  destruct (gok_spec _ _ _ Hg) as (Hw & Hp & HR & Hn' & E & E2).
  assert (nl w (rbits s) = n * Z.to_nat (rbits s / (Z.of_nat n * w)))%nat as EN.
  { unfold nl. rewrite E2. rewrite Z2Nat.inj_mul; [lia|lia|]. apply Z.div_pos; lia. }
  assert (forall v, length v = m -> length (lanes w s v) = (n * (Z.to_nat (rbits s / (Z.of_nat n * w)) * m))%nat) as HLn
    by (intros v <-; rewrite lanes_length, EN; lia).
  unfold transposed. rewrite !map_length. split; [auto|]. split; [auto|].
  exists (Z.to_nat (rbits s / (Z.of_nat n * w)) * m)%nat.
  split. { apply Forall_map. revert Fv. apply Forall_impl. auto. }
  split. { apply Forall_map. revert Fr. apply Forall_impl. auto. }
  intros g i j Hgm Hi Hj. rewrite (nth_map' _ rs i []) by lia. rewrite HL by auto.
  rewrite nth_grouped.
  - unfold pick, p_transpose.
    replace (Z.of_nat (n * g + j)) with (Z.of_nat n * Z.of_nat g + Z.of_nat j) by lia.
    rewrite grp_div, grp_mod by lia. rewrite Nat2Z.id. f_equal. lia.
  - destruct vs as [|v vs]; [cbn in Hv; lia|]. cbn [map hd]. inversion Fv; subst. rewrite HLn by auto. nia.
Qed.
Lemma p_transpose_range n i : 0 <= i < n -> in_range n (p_transpose i) = true.
Proof.
  intros H. unfold in_range. rewrite forallb_forall. intros k _. cbn. rewrite andb_true_iff, Z.leb_le, Z.ltb_lt. auto.
Qed.
Lemma gok_e e s n : n = 2 \/ (n = 4 /\ eb e < 64) -> gok (eb e) (rbits s) n = true.
Proof. intros [-> | [-> H]]; destruct e, s; try reflexivity; discriminate H. Qed.

(** transpose2 is offered for 16-, 32- and 64-bit lanes *)
Theorem transpose2_spec : forall A e s v0 v1, valid_arch A = true -> avail_et A e s = true -> 16 <= eb e ->
  wfv s v0 -> wfv s v1 -> length v1 = length v0 ->
  exists r0 r1, transpose2 A e s v0 v1 = Ok (r0, r1) /\ wfv s r0 /\ wfv s r1 /\ length r0 = length v0 /\ length r1 = length v0 /\
    transposed 2 [lanes (eb e) s v0; lanes (eb e) s v1] [lanes (eb e) s r0; lanes (eb e) s r1].
Proof.
  intros A e s v0 v1 HV HA He H0 H1 HL.
  unfold wfv in H0, H1. rewrite Forall_forall in H0, H1.
  pose proof (gok_e e s 2 ltac:(auto)) as HG. destruct (gok_spec _ _ _ HG) as (Hw & _).
  destruct (vec_ref2_nth (i_transpose2 A e s) (fun x y => lsh (eb e) (rbits s) 2 (p_transpose 0) [x; y])
    (fun x y => lsh (eb e) (rbits s) 2 (p_transpose 1) [x; y]) v0 v1 ltac:(lia)) as (r0 & r1 & E & L0 & L1 & HN).
  { intros x y Hx Hy. apply i_transpose2_ok; auto. destruct e; try discriminate. cbn in He; lia. }
  exists r0, r1. split; [exact E|].
  assert (forall r, r = r0 \/ r = r1 -> wfv s r) as HW.
  { intros r Hr. unfold wfv. rewrite Forall_forall. intros x Hx. destruct (In_nth r x 0 Hx) as (i & Hi & <-).
    destruct (HN i) as [N0 N1]; [destruct Hr as [-> | ->]; lia|].
    destruct Hr as [-> | ->]; [rewrite N0|rewrite N1]; apply lsh_reg; auto. }
  split; [auto|]. split; [auto|]. split; [auto|]. split; [auto|].
  apply (grouped_transposed (eb e) s 2 [v0; v1] [r0; r1] (length v0)); auto; try (repeat constructor; auto).
  intros [|[|i]] Hi; [| |lia]; cbn [nth Z.of_nat Pos.of_succ_nat].
  - apply (lanes_of_nth _ _ _ _ _ _ (length v0)); try assumption; try discriminate; [reflexivity|repeat constructor; auto|]. intros k Hk. apply HN; auto.
  - apply (lanes_of_nth _ _ _ _ _ _ (length v0)); try assumption; try discriminate; [reflexivity|repeat constructor; auto|]. intros k Hk. apply HN; auto.
Qed.
(** transpose4 is offered for 8-, 16- and 32-bit lanes *)
Theorem transpose4_spec : forall A e s v0 v1 v2 v3, valid_arch A = true -> avail_et A e s = true -> eb e <= 32 ->
  wfv s v0 -> wfv s v1 -> wfv s v2 -> wfv s v3 ->
  length v1 = length v0 -> length v2 = length v0 -> length v3 = length v0 ->
  exists r0 r1 r2 r3, transpose4 A e s v0 v1 v2 v3 = Ok (r0, r1, r2, r3) /\
    Forall (wfv s) [r0; r1; r2; r3] /\ Forall (fun r => length r = length v0) [r0; r1; r2; r3] /\
    transposed 4 (map (lanes (eb e) s) [v0; v1; v2; v3]) (map (lanes (eb e) s) [r0; r1; r2; r3]).
Proof.
  intros A e s v0 v1 v2 v3 HV HA He H0 H1 H2 H3 L1 L2 L3.
  unfold wfv in H0, H1, H2, H3. rewrite Forall_forall in H0, H1, H2, H3.
  assert (eb e < 64) as He' by lia.
  pose proof (gok_e e s 4 ltac:(auto)) as HG. destruct (gok_spec _ _ _ HG) as (Hw & _).
  set (G i x y z t := lsh (eb e) (rbits s) 4 (p_transpose i) [x; y; z; t]).
  destruct (vec_ref4_nth (i_transpose4 A e s) (G 0) (G 1) (G 2) (G 3) v0 v1 v2 v3 L1 L2 L3) as (r0 & r1 & r2 & r3 & E & M0 & M1 & M2 & M3 & HN).
  { intros x y z t Hx Hy Hz Ht. apply i_transpose4_ok; auto. }
  cbv zeta in HN. exists r0, r1, r2, r3. split; [exact E|].
  assert (forall i, (i < 4)%nat -> forall k, (k < length v0)%nat -> nth k (nth i [r0; r1; r2; r3] []) 0 =
    G (Z.of_nat i) (nth k v0 0) (nth k v1 0) (nth k v2 0) (nth k v3 0)) as HK.
  { intros i Hi k Hk. destruct (HN k Hk) as (N0 & N1 & N2 & N3). destruct i as [|[|[|[|i]]]]; [assumption..|lia]. }
  assert (Forall (fun r => length r = length v0) [r0; r1; r2; r3]) as FL by (repeat constructor; auto).
  assert (forall i, (i < 4)%nat -> length (nth i [r0; r1; r2; r3] []) = length v0) as FN
    by (intros [|[|[|[|i]]]] Hi; [assumption..|lia]).
  split; [|split; [exact FL|]].
  - rewrite Forall_forall. intros r Hr. destruct (In_nth _ r [] Hr) as (i & Hi & <-). unfold wfv. rewrite Forall_forall.
    intros x Hx. destruct (In_nth _ x 0 Hx) as (k & Hk & <-). rewrite FN in Hk by exact Hi. rewrite HK by auto. apply lsh_reg; auto.
  - apply (grouped_transposed (eb e) s 4 [v0; v1; v2; v3] [r0; r1; r2; r3] (length v0)); auto.
    intros i Hi. apply (lanes_of_nth _ _ _ _ _ _ (length v0)).
    + exact HG.
    + apply p_transpose_range. lia.
    + discriminate.
    + repeat constructor; auto.
    + apply FN; auto.
    + intros k Hk. apply HK; auto.
Qed.
(** a second transposition restores the rows *)
Theorem transpose2_involutive : forall A e s v0 v1, valid_arch A = true -> avail_et A e s = true -> 16 <= eb e ->
  wfv s v0 -> wfv s v1 -> length v1 = length v0 ->
  exists r0 r1, transpose2 A e s v0 v1 = Ok (r0, r1) /\ transpose2 A e s r0 r1 = Ok (v0, v1).
Proof.
  intros A e s v0 v1 HV HA He H0 H1. revert v1 H1. induction v0 as [|x v0 IH]; intros [|y v1] H1 HL; try discriminate HL.
  { exists [], []. split; reflexivity. }
  apply wfv_cons in H0 as [X0 H0]. apply wfv_cons in H1 as [X1 H1].
  destruct (IH H0 v1 H1 ltac:(cbn in HL; lia)) as (r0 & r1 & E & E').
  assert (e <> I8) as He' by (destruct e; try discriminate; cbn in He; lia).
  pose proof (gok_e e s 2 ltac:(auto)) as HG. destruct (gok_spec _ _ _ HG) as (Hw & _).
  unfold transpose2 in *.
  exists (lsh (eb e) (rbits s) 2 (p_transpose 0) [x; y] :: r0), (lsh (eb e) (rbits s) 2 (p_transpose 1) [x; y] :: r1).
  cbn [vec_ref2]. rewrite (i_transpose2_ok A e s x y) by auto. rewrite E. cbn [bind fst snd]. split; [reflexivity|].
  rewrite i_transpose2_ok by auto. rewrite E'. cbn [bind fst snd].
  change [lsh (eb e) (rbits s) 2 (p_transpose 0) [x; y]; lsh (eb e) (rbits s) 2 (p_transpose 1) [x; y]]
    with (map (fun M => lsh (eb e) (rbits s) 2 M [x; y]) [p_transpose 0; p_transpose 1]).
  rewrite !lsh_comp by (auto; apply p_transpose_range; lia).
  assert (lsh (eb e) (rbits s) 2 (comp (p_transpose 0) [p_transpose 0; p_transpose 1]) [x; y] = x) as ->.
  { etransitivity; [|apply (lsh_id (eb e) (rbits s) 2 [x; y] 0 x); auto]. apply lsh_extb; auto. }
  assert (lsh (eb e) (rbits s) 2 (comp (p_transpose 1) [p_transpose 0; p_transpose 1]) [x; y] = y) as ->.
  { etransitivity; [|apply (lsh_id (eb e) (rbits s) 2 [x; y] 1 y); auto]. apply lsh_extb; auto. }
  reflexivity.
Qed.
(** concrete cases: two-register rows *)
Example transpose_case :
  transpose2 arch_sse2 I32 R128
    [mk 32 4 (fun i => 10 + i); mk 32 4 (fun i => 20 + i)] [mk 32 4 (fun i => 30 + i); mk 32 4 (fun i => 40 + i)]
  = Ok ([mk 32 4 (fun i => nth (Z.to_nat i) [10; 30; 12; 32] 0); mk 32 4 (fun i => nth (Z.to_nat i) [20; 40; 22; 42] 0)],
        [mk 32 4 (fun i => nth (Z.to_nat i) [11; 31; 13; 33] 0); mk 32 4 (fun i => nth (Z.to_nat i) [21; 41; 23; 43] 0)]) /\
  (exists r, transpose4 arch_neon32 I8 R128 [mk 8 16 (fun i => i)] [mk 8 16 (fun i => 16 + i)]
    [mk 8 16 (fun i => 32 + i)] [mk 8 16 (fun i => 48 + i)] = Ok r /\
    (let '(r0, _, _, r3) := r in lanes 8 R128 r0 = [0; 16; 32; 48; 4; 20; 36; 52; 8; 24; 40; 56; 12; 28; 44; 60] /\
       lanes 8 R128 r3 = [3; 19; 35; 51; 7; 23; 39; 55; 11; 27; 43; 59; 15; 31; 47; 63])).
Proof.
  split; [vm_compute; reflexivity|].
  eexists. split; [vm_compute; reflexivity|]. split; [vm_compute; reflexivity|vm_compute; reflexivity].
Qed.
