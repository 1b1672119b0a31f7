(** Multiplication. *)
From Verif Require Export Model.Mul Proof.CastP Proof.ConvertP2 Proof.ConvertP3 Proof.UnzipP.

(** ------------ lanes of interleaved registers ------------ *)
Lemma zip_lane e s hi a b i : (e = I8 \/ e = I16 \/ e = I32) -> 0 <= i < rbits s / (2 * eb e) ->
  lane (2 * eb e) i (lsh (eb e) (rbits s) (en e) (p_zip (en e) hi) [a; b]) =
  let k := en e * (i / (en e / 2)) + (if hi then en e / 2 else 0) + i mod (en e / 2) in
  lane (eb e) k a + 2 ^ eb e * lane (eb e) k b.
Proof.
  intros He Hi. assert (gok (eb e) (rbits s) (en e) = true) as G by (destruct e, s; reflexivity).
  assert (0 < eb e) as Hpos by (destruct e; reflexivity).
  assert (en e = 2 * (en e / 2) /\ 0 < en e / 2 /\ rbits s / (2 * eb e) = en e / 2 * (rbits s / (en e * eb e)))
    as (E2 & Ep & Ed) by (destruct He as [-> |[-> | ->]], s; repeat split; reflexivity).
  rewrite (Z.mul_comm 2 (eb e)), lane_double by lia. cbv zeta.
  set (h := en e / 2) in *. pose proof (Z.div_mod i h ltac:(lia)) as Dm. pose proof (Z.mod_pos_bound i h ltac:(lia)) as Bm.
  set (g := i / h) in *. set (m := i mod h) in *.
  assert (0 <= g < rbits s / (en e * eb e)) by nia.
  replace (2 * i + 1) with (en e * g + (2 * m + 1)) by nia. replace (2 * i) with (en e * g + 2 * m) by nia.
  rewrite !lane_lsh by (auto; lia).
  assert (forall j, p_zip (en e) hi (2 * j) = fromA (j + if hi then h else 0)) as P0.
  { intros j. destruct hi; unfold p_zip, p_zip_hi, p_zip_lo; replace (2 * j) with (j * 2) by ring; rewrite Z.div_mul, Z.even_mul by lia; cbn [Z.even orb]; rewrite Bool.orb_true_r; apply f_equal; subst h; f_equal; lia. }
  assert (forall j, p_zip (en e) hi (2 * j + 1) = fromB (j + if hi then h else 0)) as P1.
  { intros j. destruct hi; unfold p_zip, p_zip_hi, p_zip_lo; rewrite Z.add_1_r, Z.even_succ, <- Z.negb_even, Z.even_mul; cbn [Z.even orb negb];
    replace (Z.succ (2 * j)) with (1 + j * 2) by lia; rewrite Z.div_add by lia; change (1 / 2) with 0; apply f_equal; subst h; f_equal; lia. }
  rewrite P0, P1. cbn [nth].
  replace (en e * g + (if hi then h else 0) + m) with (en e * g + (m + if hi then h else 0)) by lia. ring.
Qed.
Lemma elems_seq w n a : elems w n a = map (fun i => lane w (Z.of_nat i) a) (seq 0 n). Proof. reflexivity. Qed.
Lemma zipw_elems (f : Z -> Z -> Z) w n a b : zipw f (elems w n a) (elems w n b) = map (fun i => f (lane w (Z.of_nat i) a) (lane w (Z.of_nat i) b)) (seq 0 n).
Proof. unfold elems. induction (seq 0 n); cbn [map zipw]; congruence. Qed.

(** ------------ one register times one register ------------ *)
Definition cv2 (w w' : Z) (s s' : rsz) (f : Z -> Z -> Z) (k : nat) (a b : Z) (m : res vec) : Prop :=
  exists r, m = Ok r /\ wfv s' r /\ length r = k /\
    lanes w' s' r = zipw f (elems w (nl w (rbits s)) a) (elems w (nl w (rbits s)) b).
Lemma mull_loop_gen w w' s s' h k f : (0 < k)%nat ->
  (forall a b, reg (rbits s) a -> reg (rbits s) b -> cv2 w w' s s' h k a b (f a b)) ->
  forall va vb i pre rest, wfv s va -> wfv s vb -> length va = length vb ->
  length pre = (i * k)%nat -> length rest = (k * length va)%nat -> wfv s' pre ->
  exists vr, mull_loop f i va vb (pre ++ rest) = Ok (pre ++ vr) /\ wfv s' vr /\ length vr = (k * length va)%nat /\
    lanes w' s' vr = zipw h (lanes w s va) (lanes w s vb).
Proof.
  intros Hk Hf. induction va as [|a va IH]; intros [|b vb] i pre rest Hva Hvb Hl Hp Hr Hpre; try discriminate.
  - cbn in Hr. destruct rest; [|cbn in Hr; lia]. exists []. cbn [mull_loop length]. split; [reflexivity|]. split; [constructor|]. split; [lia|reflexivity].
  - apply wfv_cons in Hva as [Ha Hva]. apply wfv_cons in Hvb as [Hb Hvb]. cbn [mull_loop length] in *. injection Hl as Hl.
    destruct (Hf a b Ha Hb) as (sr & E & Ws & Ls & EL). rewrite E. cbn [bind].
    rewrite Ls. rewrite <- Hp. pose proof (acopy_ok pre sr k 0 rest ltac:(lia) ltac:(lia)) as Hc. cbn [firstn app] in Hc. rewrite Hc. cbn [bind].
    rewrite app_assoc. rewrite Nat.mul_succ_r in *.
    destruct (IH vb (S i) (pre ++ sr) (skipn k rest)) as (vr & E2 & W2 & L2 & EL2); auto.
    + rewrite app_length. lia.
    + rewrite skipn_length. lia.
    + apply wfv_app; auto.
    + exists (sr ++ vr). rewrite <- !app_assoc in E2. rewrite <- app_assoc. rewrite E2. split; auto.
      split; [apply wfv_app; auto|]. split; [rewrite app_length; lia|].
      rewrite lanes_app, EL, EL2, !lanes_cons, zipw_app by (rewrite !elems_length; reflexivity). reflexivity.
Qed.
Lemma mull_typed A w w' T f h : valid_arch A = true -> vsize T -> wpair w w' ->
  (forall a b, reg (rbits (vreg A w T)) a -> reg (rbits (vreg A w T)) b ->
     let s := vreg A w T in cv2 w w' s (vreg A w' (rbits s * w' / w)) h (per A w w' s) a b (f s a b)) ->
  converts2 A w w' T (mull_vec A w w' T f) h.
Proof.
  intros HV HT HP Hf va vb Hva Hvb. cbv zeta in Hf.
  destruct (Z.eq_dec T (rbits (vreg A w T))) as [E|Hne].
  - destruct (typed_single _ _ _ _ Hva E) as (a & -> & Ha). destruct (typed_single _ _ _ _ Hvb E) as (b & -> & Hb). cbn [mull_vec].
    destruct (Hf _ _ Ha Hb) as (r & Er & Wr & Lr & ELr).
    rewrite <- E in Wr, ELr. rewrite Er. exists r. split; auto. split; [split; auto|].
    + rewrite Lr. unfold per, vlen. rewrite <- E.
      assert (T = 128 \/ T = 256 \/ T = 512) as HT3 by (rewrite E; destruct (vreg A w T); cbn; auto).
      clear - HT3 HP HV. unfold vreg, fast_int.
      destruct HT3 as [-> |[-> | ->]], HP as [[-> [-> | [-> | ->]]] | [[-> [-> | ->]] | [-> ->]]];
      rconf HV; rewrite ?Eb, ?Ef, ?E2; reflexivity.
    + unfold tlanes. rewrite ELr. unfold lanes. cbn [flat_map]. rewrite !app_nil_r. rewrite <- E. reflexivity.
  - destruct (multi_geom A w w' T HV HT HP Hne) as (G1 & G2 & G3 & G4). cbv zeta in *.
    pose proof (typed_multi _ _ _ _ Hva Hne HT) as Hl. pose proof (typed_len _ _ _ _ Hva) as Hlen. pose proof (typed_len _ _ _ _ Hvb) as Hlenb.
    destruct Hva as [Wv Lv]. destruct Hvb as [Wb Lb].
    assert (mull_vec A w w' T f va vb = mull_loop (f (vreg A w T)) 0 va vb (repeat 0 (vlen A w' (T * w' / w)))) as ->.
    { destruct va as [|a [|b va]]; cbn in Hl; try lia; reflexivity. }
    set (k := per A w w' (fast_int A w)).
    assert (vlen A w' (T * w' / w) = k * length va)%nat as Hn.
    { unfold k. rewrite <- G3. unfold per, vlen at 1. rewrite G1, G2. rewrite Hlen. unfold vlen.
      rewrite Z2Nat.inj_mul; [reflexivity| |].
      - apply Z.div_pos; [|apply rb_pos]. pose proof (rb_pos (vreg A w T)). apply Z.div_pos; [|destruct HP as [[-> _]|[[-> _]|[-> _]]]; lia].
        destruct HP as [[-> [-> | [-> | ->]]] | [[-> [-> | ->]] | [-> ->]]]; lia.
      - apply Z.div_pos; [|apply rb_pos]. destruct HT as [n ->]. pose proof (pow2_pos (Z.of_nat n) ltac:(lia)). lia. }
    rewrite Hn.
    assert (0 < k)%nat as Hk0.
    { unfold k, per, vlen, vreg, fast_int. clear - HP HV.
      destruct HP as [[-> [-> | [-> | ->]]] | [[-> [-> | ->]] | [-> ->]]];
      rconf HV; rewrite ?Eb, ?Ef, ?E2; vm_compute; lia. }
    destruct (mull_loop_gen w w' (vreg A w T) (vreg A w' (rbits (vreg A w T) * w' / w)) h k (f (vreg A w T)) Hk0) with (va := va) (vb := vb) (i := 0%nat) (pre := @nil Z) (rest := repeat 0 (k * length va))
      as (vr & E & Wr & Lr & EL); auto.
    + intros a b Ha Hb. unfold k. rewrite <- G3. apply Hf; auto.
    + congruence.
    + rewrite repeat_length. reflexivity.
    + constructor.
    + cbn [app] in E. exists vr. split; [exact E|]. unfold typed, tlanes. rewrite G1. split; [split; auto|exact EL].
      rewrite Lr, <- Hn. unfold vlen. rewrite G1. rewrite Z2Nat.id; [etransitivity; [apply Z.mul_comm|symmetry; exact G4]|].
      apply Z.div_pos; [|apply rb_pos].
      apply Z.div_pos; destruct HT as [n ->]; pose proof (pow2_pos (Z.of_nat n) ltac:(lia)); destruct HP as [[-> [-> | [-> | ->]]] | [[-> [-> | ->]] | [-> ->]]]; lia.
Qed.

(** the two halves of the result *)
Lemma combine2_ok A w s x y : valid_arch A = true -> lw w -> avail_int A w s = true -> reg (rbits s) x -> reg (rbits s) y ->
  wfv (vreg A w (2 * rbits s)) (combine2 A w s x y) /\ length (combine2 A w s x y) = vlen A w (2 * rbits s) /\
  forall v, lw v -> lanes v (vreg A w (2 * rbits s)) (combine2 A w s x y) = elems v (nl v (rbits s)) x ++ elems v (nl v (rbits s)) y.
Proof.
  intros HV Hw HA Hx Hy.
  assert ((combine2 A w s x y = [x; y] /\ vreg A w (2 * rbits s) = s) \/
          exists s', combine2 A w s x y = [i_combine1 s x y] /\ half_of s' s /\ vreg A w (2 * rbits s) = s') as HC.
  { unfold combine2, vreg, fast_int, half_of, i_combine1. destruct s; cbn [rbits avail_int] in *;
    cbn [Z.mul Pos.mul Z.leb Z.compare Pos.compare Pos.compare_cont] in *;
    destruct (rconf_ok _ HV); rw_flags; destruct (w <=? 16); 
    solve [ left; auto | right; eexists; split; [reflexivity|split; [auto|reflexivity]] | fcontra ]. }
  unfold vlen. destruct HC as [[-> ->]|(s' & -> & Hh & ->)].
  - split; [apply wfv_cons; split; auto; apply wfv_cons; split; auto; constructor|].
    split; [destruct s; reflexivity|]. intros v Hv. unfold lanes. cbn [flat_map]. rewrite app_nil_r. reflexivity.
  - destruct (join_lanes w s s' x y Hw Hh Hx Hy) as [Wj _].
    split; [apply wfv_cons; split; auto; constructor|].
    split; [destruct Hh as [[-> ->]|[-> ->]]; reflexivity|].
    intros v Hv. destruct (join_lanes v s s' x y Hv Hh Hx Hy) as [_ Ej]. unfold lanes. cbn [flat_map]. rewrite app_nil_r. exact Ej.
Qed.
(** [x] and [y] hold the products of the lower and of the upper halves *)
Definition prods (w R : Z) (f : Z -> Z -> Z) (a b x y : Z) : Prop :=
  forall i, 0 <= i < R / (2 * w) ->
    lane (2 * w) i x = f (lane w i a) (lane w i b) /\
    lane (2 * w) i y = f (lane w (R / (2 * w) + i) a) (lane w (R / (2 * w) + i) b).
Definition w12 (w : Z) : Prop := w = 16 \/ w = 32.
Lemma prods_elems w s f a b x y : w12 w -> prods w (rbits s) f a b x y ->
  elems (2 * w) (nl (2 * w) (rbits s)) x ++ elems (2 * w) (nl (2 * w) (rbits s)) y =
  zipw f (elems w (nl w (rbits s)) a) (elems w (nl w (rbits s)) b).
Proof.
  intros Hw HP. rewrite zipw_elems, !elems_seq.
  assert (nl w (rbits s) = nl (2 * w) (rbits s) + nl (2 * w) (rbits s))%nat as -> by (destruct Hw as [-> | ->], s; reflexivity).
  rewrite seq_app, map_app. cbn [Nat.add].
  f_equal; [|rewrite (seq_shift_map _ (nl (2 * w) (rbits s)))]; apply map_ext_in; intros i Hi; apply in_seq in Hi;
    assert (0 <= Z.of_nat i < rbits s / (2 * w)) as Hz by (unfold nl in Hi; lia); destruct (HP _ Hz) as [P1 P2]; auto.
  rewrite P2. unfold nl. rewrite Nat2Z.inj_add, Z2Nat.id by lia. reflexivity.
Qed.
Lemma cv2_of_lanes A w s f a b r : w12 w -> wfv (vreg A (2 * w) (2 * rbits s)) r -> length r = vlen A (2 * w) (2 * rbits s) ->
  lanes (2 * w) (vreg A (2 * w) (2 * rbits s)) r = zipw f (elems w (nl w (rbits s)) a) (elems w (nl w (rbits s)) b) ->
  cv2 w (2 * w) s (vreg A (2 * w) (rbits s * (2 * w) / w)) f (per A w (2 * w) s) a b (Ok r).
Proof.
  intros Hw W L E. exists r. unfold per.
  replace (rbits s * (2 * w) / w) with (2 * rbits s) by (destruct Hw as [-> | ->], s; reflexivity). auto.
Qed.
Lemma cv2_combine A w s f a b x y : valid_arch A = true -> w12 w -> avail_int A (2 * w) s = true ->
  reg (rbits s) x -> reg (rbits s) y -> prods w (rbits s) f a b x y ->
  cv2 w (2 * w) s (vreg A (2 * w) (rbits s * (2 * w) / w)) f (per A w (2 * w) s) a b (Ok (combine2 A (2 * w) s x y)).
Proof.
  intros HV Hw HA Hx Hy HP. assert (lw (2 * w)) as Hl by (destruct Hw as [-> | ->]; unfold lw; auto).
  destruct (combine2_ok A (2 * w) s x y HV Hl HA Hx Hy) as (W & L & E).
  apply cv2_of_lanes; auto. rewrite E by auto. apply prods_elems; auto.
Qed.
(** the same through a vector of the narrow type *)
Lemma cv2_cast A s f a b x y : valid_arch A = true -> avail_int A 16 s = true ->
  reg (rbits s) x -> reg (rbits s) y -> prods 16 (rbits s) f a b x y ->
  cv2 16 32 s (vreg A 32 (rbits s * 32 / 16)) f (per A 16 32 s) a b
    (bit_cast A (TInt W16) (TInt W32) (2 * rbits s) (combine2 A 16 s x y)).
Proof.
  intros HV HA Hx Hy HP. assert (lw 16) as Hl by (unfold lw; auto).
  destruct (combine2_ok A 16 s x y HV Hl HA Hx Hy) as (W & L & E).
  assert (vsize (2 * rbits s)) as HT by (destruct s; [exists 1%nat|exists 2%nat|exists 3%nat]; reflexivity).
  destruct (bit_cast_ok A (TInt W16) (TInt W32) (2 * rbits s) (combine2 A 16 s x y) HV HT) as (vr & Er & Wr & Lr & EL); cbn [vty_reg wb] in *; auto.
  - rewrite L. unfold vlen. clear. unfold vreg, fast_int. destruct s, (use_avx512bw A), (use_avx512f A), (use_avx2 A); reflexivity.
  - rewrite Er. apply (cv2_of_lanes A 16); [left; reflexivity|exact Wr| |].
    + change (2 * 16) with 32. unfold vlen. pose proof (rb_pos (vreg A 32 (2 * rbits s))). set (R := rbits (vreg A 32 (2 * rbits s))) in *. clearbody R. rewrite <- Lr, Z.div_mul by lia. lia.
    + change (2 * 16) with 32. rewrite EL by (unfold lw; auto). rewrite E by (unfold lw; auto). apply (prods_elems 16); auto. left; reflexivity.
Qed.
