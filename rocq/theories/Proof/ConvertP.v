From Verif Require Import Proof.SelTac Proof.MoveP Proof.PermuteP Proof.ShiftP.
From Verif Require Export Model.Convert.

(** ------------ arrays ------------ *)
Lemma aget_in v i : (i < length v)%nat -> aget v i = Ok (nth i v 0).
Proof. intros H. unfold aget, aclamp. apply Nat.ltb_lt in H. rewrite H. reflexivity. Qed.
Lemma aset_in v i x : (i < length v)%nat -> aset v i x = Ok (upd v i x).
Proof. intros H. unfold aset, aclamp. apply Nat.ltb_lt in H. rewrite H. reflexivity. Qed.
Lemma upd_app l y m x : upd (l ++ y :: m) (length l) x = l ++ x :: m.
Proof. induction l; cbn; auto. rewrite IHl. reflexivity. Qed.
Lemma upd_length v i x : length (upd v i x) = length v.
Proof. revert i. induction v; destruct i; cbn; auto. Qed.
Lemma acopy_ok pre src : forall n o rest, (o + n = length src)%nat -> (n <= length rest)%nat ->
  acopy (pre ++ firstn o src ++ rest) src (map (fun j => (length pre + j, j)%nat) (seq o n)) =
  Ok (pre ++ src ++ skipn n rest).
Proof.
  induction n as [|n IH]; intros o rest Ho Hr; cbn [seq map acopy].
  - rewrite firstn_all2 by lia. reflexivity.
  - destruct rest as [|y rest]; [cbn in Hr; lia|]. cbn in Hr.
    rewrite aget_in by lia. cbn [bind].
    assert (length (firstn o src) = o) as Hl by (rewrite firstn_length; lia).
    rewrite aset_in by (rewrite !app_length; cbn [length]; lia). cbn [bind].
    rewrite app_assoc. replace (length pre + o)%nat with (length (pre ++ firstn o src)) by (rewrite app_length; lia).
    rewrite upd_app. rewrite <- app_assoc.
    assert (firstn o src ++ nth o src 0 :: rest = firstn (S o) src ++ rest) as ->.
    { clear - Ho Hl. assert (o < length src)%nat as H by lia. clear Ho Hl. revert o H. induction src; intros [|o] H; cbn in *; try lia; auto.
      rewrite IHsrc by lia. reflexivity. }
    rewrite IH by lia. reflexivity.
Qed.

(** ------------ converters ------------ *)
Definition cv (w w' : Z) (s s' : rsz) (f : Z -> Z) (k : nat) (a : Z) (m : res vec) : Prop :=
  exists r, m = Ok r /\ wfv s' r /\ length r = k /\
    lanes w' s' r = map f (elems w (nl w (rbits s)) a).
Lemma wfv_app s v u : wfv s v -> wfv s u -> wfv s (v ++ u).
Proof. unfold wfv. intros. apply Forall_app. auto. Qed.
Lemma lanes_app w s v u : lanes w s (v ++ u) = lanes w s v ++ lanes w s u.
Proof. unfold lanes. apply flat_map_app. Qed.
Lemma conv_loop_gen w w' s s' h k f : (0 < k)%nat ->
  (forall a, reg (rbits s) a -> cv w w' s s' h k a (f a)) ->
  forall va i pre rest, wfv s va -> length pre = (i * k)%nat -> length rest = (k * length va)%nat -> wfv s' pre ->
  exists vr, conv_loop k f i va (pre ++ rest) = Ok (pre ++ vr) /\ wfv s' vr /\ length vr = (k * length va)%nat /\
    lanes w' s' vr = map h (lanes w s va).
Proof.
  intros Hk Hf. induction va as [|a va IH]; intros i pre rest Hv Hp Hr Hpre.
  - cbn in Hr. destruct rest; [|cbn in Hr; lia]. exists []. cbn [conv_loop length]. split; [reflexivity|]. split; [constructor|]. split; [lia|reflexivity].
  - apply wfv_cons in Hv as [Ha Hv]. cbn [conv_loop length] in *.
    destruct (Hf a Ha) as (sr & E & Ws & Ls & EL). rewrite E. cbn [bind].
    rewrite <- Hp. pose proof (acopy_ok pre sr k 0 rest ltac:(lia) ltac:(lia)) as Hc. cbn [firstn app] in Hc. rewrite Hc. cbn [bind].
    rewrite app_assoc. rewrite Nat.mul_succ_r in *.
    destruct (IH (S i) (pre ++ sr) (skipn k rest)) as (vr & E2 & W2 & L2 & EL2); auto.
    + rewrite app_length. lia.
    + rewrite skipn_length. lia.
    + apply wfv_app; auto.
    + exists (sr ++ vr). rewrite <- !app_assoc in E2. rewrite <- app_assoc. rewrite E2. split; auto.
      split; [apply wfv_app; auto|]. split; [rewrite app_length; lia|].
      rewrite lanes_app, EL, EL2, lanes_cons, map_app. reflexivity.
Qed.

(** the typed statement *)
Lemma rb_pos s : 0 < rbits s. Proof. destruct s; reflexivity. Qed.
Lemma typed_len A w T v : typed A w T v -> length v = vlen A w T.
Proof.
  intros [_ H]. unfold vlen. pose proof (rb_pos (vreg A w T)) as Hp. generalize dependent (rbits (vreg A w T)). intros R H Hp.
  rewrite <- H, Z.div_mul by lia. apply eq_sym, Nat2Z.id.
Qed.
Lemma vsize_div T : vsize T -> T = 128 \/ T = 256 \/ T = 512 \/ (512 < T /\ exists q, T = 1024 * q).
Proof.
  intros [k ->]. destruct k as [|[|[|k]]]; [auto..|]. right. right. right.
  rewrite !Nat2Z.inj_succ. rewrite !Z.pow_succ_r by lia. pose proof (pow2_pos (Z.of_nat k) ltac:(lia)).
  split; [lia|]. exists (2 ^ Z.of_nat k). lia.
Qed.

(** the four x86 register configurations *)
Inductive rconf (A : arch) : Prop :=
| RC512bw : use_avx512bw A = true -> use_avx512f A = true -> use_avx2 A = true -> rconf A
| RC512f : use_avx512bw A = false -> use_avx512f A = true -> use_avx2 A = true -> rconf A
| RC256 : use_avx512bw A = false -> use_avx512f A = false -> use_avx2 A = true -> rconf A
| RC128 : use_avx512bw A = false -> use_avx512f A = false -> use_avx2 A = false -> rconf A.
Lemma rconf_ok A : valid_arch A = true -> rconf A.
Proof.
  intros HV. destruct (valid_imp A HV) as (_ & _ & Hb & Hf & _).
  destruct (use_avx512bw A) eqn:Eb.
  - apply RC512bw; auto.
  - destruct (use_avx512f A) eqn:Ef; [apply RC512f; auto|].
    destruct (use_avx2 A) eqn:E2; [apply RC256|apply RC128]; auto.
Qed.
Ltac rconf HV := destruct (rconf_ok _ HV) as [Eb Ef E2|Eb Ef E2|Eb Ef E2|Eb Ef E2].
Ltac rw3 Eb Ef E2 := rewrite ?Eb, ?Ef, ?E2 in *.

Lemma vreg_avail A w T : valid_arch A = true -> avail_int A w (vreg A w T) = true.
Proof.
  intros HV. unfold vreg, avail_int, fast_int.
  destruct (T <=? 128); auto.
  rconf HV; rw3 Eb Ef E2; destruct (w <=? 16) eqn:Ew, (T <=? 256); auto.
Qed.

Definition wpair (w w' : Z) : Prop :=
  (w = 8 /\ (w' = 16 \/ w' = 32 \/ w' = 64)) \/ (w = 16 /\ (w' = 32 \/ w' = 64)) \/ (w = 32 /\ w' = 64).
(** [k]: registers of the result per register of the argument *)
Definition per (A : arch) (w w' : Z) (s : rsz) : nat := vlen A w' (rbits s * w' / w).
Lemma vreg_single A w T s : T = 128 \/ T = 256 \/ T = 512 -> vreg A w T = s -> T = rbits s \/ rbits s < T.
Proof. intros HT <-. unfold vreg. destruct (Z.leb_spec T 128); cbn; try lia. destruct (fast_int A w); cbn; try lia. destruct (Z.leb_spec T 256); cbn; lia. Qed.

Lemma typed_single A w T v : typed A w T v -> T = rbits (vreg A w T) -> exists a, v = [a] /\ reg (rbits (vreg A w T)) a.
Proof.
  intros [W L] E. pose proof (rb_pos (vreg A w T)).
  assert (length v = 1%nat) as L1 by nia.
  destruct v as [|a [|b v]]; try discriminate. exists a. split; auto. apply wfv_cons in W. tauto.
Qed.
Lemma typed_multi A w T v : typed A w T v -> T <> rbits (vreg A w T) -> vsize T -> (1 < length v)%nat.
Proof.
  intros [W L] E HT. assert (0 < T) by (destruct (vsize_div _ HT) as [ | [ | [ | [? _]]]]; lia).
  destruct v as [|a [|b v]]; cbn [length] in *; lia.
Qed.
(** of a vector of several registers *)
Ltac zdiv := apply Z.div_unique_exact; [lia|ring].
Lemma multi_geom A w w' T : valid_arch A = true -> vsize T -> wpair w w' -> T <> rbits (vreg A w T) ->
  let s := vreg A w T in let s' := vreg A w' (rbits s * w' / w) in
  vreg A w' (T * w' / w) = s' /\ T * w' / w / rbits s' = (rbits s * w' / w / rbits s') * (T / rbits s) /\
  s = fast_int A w /\ T * w' / w = rbits s' * (T * w' / w / rbits s').
Proof.
  intros HV HT HP Hne.
  destruct (vsize_div _ HT) as [E|[E|[E|(Hb & q & E)]]];
  destruct HP as [[-> [-> | [-> | ->]]] | [[-> [-> | ->]] | [-> ->]]]; subst T; cbv zeta in *;
  unfold vreg, fast_int in *; rconf HV; rw3 Eb Ef E2; cbn [rbits] in *; try (exfalso; apply Hne; reflexivity);
  try solve [repeat split; reflexivity];
  repeat match goal with |- context [1024 * q * ?c / ?d] => let v := eval vm_compute in (1024 * c / d) in replace (1024 * q * c / d) with (v * q) by zdiv end;
  repeat match goal with |- context [Z.leb (?c * q) ?d] => destruct (Z.leb_spec (c * q) d); [exfalso; lia|] end; cbn [rbits];
  repeat match goal with |- context [rbits ?x] => let v := eval vm_compute in (rbits x) in change (rbits x) with v end;
  repeat match goal with |- context [?c * q / ?d] => let v := eval vm_compute in (c / d) in replace (c * q / d) with (v * q) by zdiv end;
  repeat match goal with |- context [1024 * q / ?d] => let v := eval vm_compute in (1024 / d) in replace (1024 * q / d) with (v * q) by zdiv end;
  (split; [reflexivity|]; split; [|split; [reflexivity|ring]]);
  match goal with |- _ = ?e * _ => let v := eval vm_compute in e in change e with v end; ring.
Qed.

Lemma conv_typed A w w' T k f h : valid_arch A = true -> vsize T -> wpair w w' ->
  (forall s a, avail_int A w s = true -> reg (rbits s) a ->
     cv w w' s (vreg A w' (rbits s * w' / w)) h (per A w w' s) a (f s a)) ->
  (T <> rbits (vreg A w T) -> k = per A w w' (fast_int A w)) ->
  converts A w w' T (conv_vec A w w' T k f) h.
Proof.
  intros HV HT HP Hf Hk va Hva.
  pose proof (vreg_avail A w T HV) as HAv.
  destruct (Z.eq_dec T (rbits (vreg A w T))) as [E|Hne].
  - destruct (typed_single _ _ _ _ Hva E) as (a & -> & Ha). cbn [conv_vec].
    destruct (Hf _ _ HAv Ha) as (r & Er & Wr & Lr & ELr).
    rewrite <- E in Wr, ELr. rewrite Er. exists r. split; auto. split; [split; auto|].
    + rewrite Lr. unfold per, vlen. rewrite <- E.
      assert (T = 128 \/ T = 256 \/ T = 512) as HT3 by (rewrite E; destruct (vreg A w T); cbn; auto).
      clear - HT3 HP HV. unfold vreg, fast_int.
      destruct HT3 as [-> |[-> | ->]], HP as [[-> [-> | [-> | ->]]] | [[-> [-> | ->]] | [-> ->]]];
      rconf HV; rewrite ?Eb, ?Ef, ?E2; reflexivity.
    + unfold tlanes. rewrite ELr. unfold lanes. cbn [flat_map]. rewrite app_nil_r. rewrite <- E. reflexivity.
  - specialize (Hk Hne).
    destruct (multi_geom A w w' T HV HT HP Hne) as (G1 & G2 & G3 & G4). cbv zeta in *.
    pose proof (typed_multi _ _ _ _ Hva Hne HT) as Hl. pose proof (typed_len _ _ _ _ Hva) as Hlen.
    destruct Hva as [Wv Lv].
    assert (conv_vec A w w' T k f va = conv_loop k (f (vreg A w T)) 0 va (repeat 0 (vlen A w' (T * w' / w)))) as ->.
    { destruct va as [|a [|b va]]; cbn in Hl; try lia; reflexivity. }
    assert (vlen A w' (T * w' / w) = k * length va)%nat as Hn.
    { rewrite Hk, <- G3. unfold per, vlen at 1. rewrite G1, G2. rewrite Hlen. unfold vlen.
      rewrite Z2Nat.inj_mul; [reflexivity| |].
      - apply Z.div_pos; [|apply rb_pos]. pose proof (rb_pos (vreg A w T)). apply Z.div_pos; [|destruct HP as [[-> _]|[[-> _]|[-> _]]]; lia].
        destruct HP as [[-> [-> | [-> | ->]]] | [[-> [-> | ->]] | [-> ->]]]; lia.
      - apply Z.div_pos; [|apply rb_pos]. destruct HT as [n ->]. pose proof (pow2_pos (Z.of_nat n) ltac:(lia)). lia. }
    rewrite Hn.
    assert (0 < k)%nat as Hk0.
    { rewrite Hk. unfold per, vlen, vreg, fast_int. clear - HP HV.
      destruct HP as [[-> [-> | [-> | ->]]] | [[-> [-> | ->]] | [-> ->]]];
      rconf HV; rewrite ?Eb, ?Ef, ?E2; vm_compute; lia. }
    destruct (conv_loop_gen w w' (vreg A w T) (vreg A w' (rbits (vreg A w T) * w' / w)) h k (f (vreg A w T)) Hk0) with (va := va) (i := 0%nat) (pre := @nil Z) (rest := repeat 0 (k * length va))
      as (vr & E & Wr & Lr & EL); auto.
    + intros a Ha. rewrite Hk, <- G3. apply Hf; auto.
    + rewrite repeat_length. reflexivity.
    + constructor.
    + cbn [app] in E. exists vr. split; [exact E|]. unfold typed, tlanes. rewrite G1. split; [split; auto|exact EL].
      rewrite Lr, <- Hn. unfold vlen. rewrite G1. rewrite Z2Nat.id; [etransitivity; [apply Z.mul_comm|symmetry; exact G4]|].
      apply Z.div_pos; [|apply rb_pos].
      apply Z.div_pos; destruct HT as [n ->]; pose proof (pow2_pos (Z.of_nat n) ltac:(lia)); destruct HP as [[-> [-> | [-> | ->]]] | [[-> [-> | ->]] | [-> ->]]]; lia.
Qed.

(** ------------ one register ------------ *)
Lemma seq_shift_map {X} (g : nat -> X) b m : map g (seq b m) = map (fun i => g (b + i)%nat) (seq 0 m).
Proof.
  revert b. induction m; intros b; cbn; auto. rewrite Nat.add_0_r. f_equal.
  rewrite IHm. rewrite <- (seq_shift m 0), map_map. apply map_ext. intros i. f_equal. lia.
Qed.
Lemma seq_blocks {X} (g : nat -> X) m k : forall b,
  map g (seq (b * m) (k * m)) = flat_map (fun j => map (fun i => g (j * m + i)%nat) (seq 0 m)) (seq b k).
Proof.
  induction k as [|k IH]; intros b; cbn [Nat.mul seq flat_map]; auto.
  rewrite seq_app, map_app, <- IH. f_equal; [apply seq_shift_map|]. f_equal. f_equal. lia.
Qed.
Definition wide (w w' R R' : Z) (f : Z -> Z) (a : Z) : vec :=
  map (fun j => pack w' R' (fun i => f (lane w (j * (R' / w') + i) a))) (zrange (R / w / (R' / w'))).
Lemma wide_cv w w' s s' f a l k : wok w (rbits s) = true -> wok w' (rbits s') = true ->
  rbits s / w = rbits s' / w' * (rbits s / w / (rbits s' / w')) ->
  (forall x, 0 <= x < 2 ^ w -> 0 <= f x < 2 ^ w') ->
  k = Z.to_nat (rbits s / w / (rbits s' / w')) ->
  l = wide w w' (rbits s) (rbits s') f a -> cv w w' s s' f k a (Ok l).
Proof.
  intros Hw Hw' HR Hf -> ->. exists (wide w w' (rbits s) (rbits s') f a). split; auto.
  destruct (wok_spec _ _ Hw) as (Hp & HRp & ER & En). destruct (wok_spec _ _ Hw') as (Hp' & HRp' & ER' & En').
  unfold wide, lanes, elems. unfold nl in *.
  remember (rbits s' / w') as m eqn:Em. remember (rbits s / w / m) as k eqn:Ek.
  assert (0 < m) by nia. assert (0 < rbits s / w) by nia. assert (0 < k) by nia.
  split; [|split].
  - apply Forall_forall. intros x Hx. apply in_map_iff in Hx as (j & <- & _). apply pack_reg; auto.
  - rewrite map_length. unfold zrange. rewrite map_length, seq_length. reflexivity.
  - rewrite HR. replace (Z.to_nat (m * k)) with (Z.to_nat k * Z.to_nat m)%nat by lia.
    rewrite map_map. symmetry. etransitivity; [apply (seq_blocks _ (Z.to_nat m) (Z.to_nat k) 0)|]. symmetry.
    unfold zrange. rewrite map_map, !flat_map_concat_map, map_map. f_equal. apply map_ext_in. intros j Hj. apply in_seq in Hj.
    apply map_ext_in. intros i Hi. apply in_seq in Hi.
    rewrite lane_pack by (auto; lia). rewrite wrap_small.
    + f_equal. f_equal. lia.
    + apply Hf, lane_range. lia.
Qed.

Lemma lane_move e a sh i : 0 <= sh -> 0 <= i -> i + sh < en e -> 
  lane (eb e) i (lsh (eb e) 128 (en e) (p_move_l (en e) sh) [a]) = lane (eb e) (i + sh) a.
Proof.
  intros Hs Hi Hb. assert (gok (eb e) 128 (en e) = true) as G by (destruct e; reflexivity).
  replace i with (en e * 0 + i) at 1 by lia.
  rewrite lane_lsh; auto; [|lia|destruct e; cbn; lia].
  unfold p_move_l. rewrite (proj2 (Z.ltb_lt (i + sh) (en e)) Hb). cbn [nth]. f_equal. lia.
Qed.
Lemma lane_part w n q i a : 0 < w -> 0 < n -> 0 <= q -> 0 <= i < n -> lane w i (lane (w * n) q a) = lane w (q * n + i) a.
Proof. intros. apply lane_lane; lia. Qed.
Lemma lane_x128 e q i a : 0 <= q -> 0 <= i < en e -> lane (eb e) i (mm_extract128 q a) = lane (eb e) (q * en e + i) a.
Proof.
  intros Hq Hi. unfold mm_extract128.
  destruct e; cbn [eb] in *; change (en I8) with 16 in *; change (en I16) with 8 in *; change (en I32) with 4 in *; change (en F32) with 4 in *; change (en I64) with 2 in *; change (en F64) with 2 in *;
  [apply (lane_part 8 16)|apply (lane_part 16 8)|apply (lane_part 32 4)|apply (lane_part 64 2)|apply (lane_part 32 4)|apply (lane_part 64 2)]; lia.
Qed.
Lemma lane_x256 e q i a : 0 <= q -> 0 <= i < 2 * en e -> lane (eb e) i (mm_extract256 q a) = lane (eb e) (q * (2 * en e) + i) a.
Proof.
  intros Hq Hi. unfold mm_extract256.
  destruct e; cbn [eb] in *; change (en I8) with 16 in *; change (en I16) with 8 in *; change (en I32) with 4 in *; change (en F32) with 4 in *; change (en I64) with 2 in *; change (en F64) with 2 in *;
  [apply (lane_part 8 32)|apply (lane_part 16 16)|apply (lane_part 32 8)|apply (lane_part 64 4)|apply (lane_part 32 8)|apply (lane_part 64 4)]; lia.
Qed.
Lemma lane_x64 e q i a : 0 <= q -> 0 <= i < en e / 2 -> lane (eb e) i (lane 64 q a) = lane (eb e) (q * (en e / 2) + i) a.
Proof.
  intros Hq Hi.
  destruct e; cbn [eb] in *; change (en I8) with 16 in *; change (en I16) with 8 in *; change (en I32) with 4 in *; change (en F32) with 4 in *; change (en I64) with 2 in *; change (en F64) with 2 in *;
  [apply (lane_part 8 8)|apply (lane_part 16 4)|apply (lane_part 32 2)|apply (lane_part 64 1)|apply (lane_part 32 2)|apply (lane_part 64 1)]; cbn in *; lia.
Qed.
(** zip(a, b) read at twice the width *)
Lemma zip_wide e hi a b : (e = I8 \/ e = I16 \/ e = I32) ->
  lsh (eb e) 128 (en e) (p_zip (en e) hi) [a; b] =
  pack (2 * eb e) 128 (fun i => let k := (if hi then en e / 2 else 0) + i in lane (eb e) k a + 2 ^ eb e * lane (eb e) k b).
Proof.
  intros He. assert (gok (eb e) 128 (en e) = true) as G by (destruct e; reflexivity).
  assert (0 < eb e) as Hpos by (destruct e; reflexivity).
  assert (wok (2 * eb e) 128 = true) as HW by (destruct He as [-> |[-> | ->]]; reflexivity).
  assert (128 / (2 * eb e) = en e / 2 /\ en e = 2 * (en e / 2) /\ 128 / (en e * eb e) = 1) as (Hd & He2 & H1) by (destruct He as [-> |[-> | ->]]; repeat split; reflexivity).
  apply (reg_lanes (2 * eb e) 128); auto.
  { unfold lsh. apply pack_reg. destruct e; reflexivity. }
  intros i Hi. rewrite Hd in Hi. rewrite lane_pack by (auto; lia). rewrite (Z.mul_comm 2 (eb e)), lane_double by lia.
  assert (forall k, 0 <= k < en e -> lane (eb e) k (lsh (eb e) 128 (en e) (p_zip (en e) hi) [a; b]) =
     match p_zip (en e) hi k with None => 0 | Some (m, j) => lane (eb e) j (nth m [a; b] 0) end) as HL.
  { intros k Hk. replace k with (en e * 0 + k) at 1 by lia. rewrite lane_lsh by (auto; lia).
    destruct (p_zip (en e) hi k) as [[m j]|]; [f_equal; lia|reflexivity]. }
  rewrite !HL by lia. unfold p_zip, p_zip_lo, p_zip_hi.
  assert (forall x y, 0 <= x < 2 ^ eb e -> 0 <= y < 2 ^ eb e -> wrap (eb e * 2) (x + 2 ^ eb e * y) = x + y * 2 ^ eb e) as Hw.
  { intros x y Hx Hy. rewrite wrap_small; [lia|]. replace (eb e * 2) with (eb e + eb e) by lia. rewrite Z.pow_add_r by lia. nia. }
  cbv zeta. rewrite Hw by (apply lane_range; lia).
  assert (Z.even (2 * i) = true) as E1 by (rewrite Z.even_mul; reflexivity).
  assert (Z.even (2 * i + 1) = false) as E2 by (rewrite Z.add_comm, Z.even_add_mul_2; reflexivity).
  assert (2 * i / 2 = i) as E3 by (rewrite Z.mul_comm; apply Z.div_mul; lia).
  assert ((2 * i + 1) / 2 = i) as E4 by (symmetry; apply (Z.div_unique _ 2 i 1); lia).
  destruct hi; rewrite E1, E2, E3, E4; cbn [nth]; reflexivity.
Qed.

(** extension is in range *)
Lemma s_extend_range sg w w' x : 0 < w <= w' -> 0 <= x < 2 ^ w -> 0 <= s_extend sg w w' x < 2 ^ w'.
Proof.
  intros Hw Hx. unfold s_extend. destruct sg; [apply Z.mod_pos_bound, pow2_pos; lia|].
  pose proof (Z.pow_le_mono_r 2 w w' ltac:(lia) ltac:(lia)). lia.
Qed.
Definition xt (sg : bool) (w x : Z) : Z := if sg then sgn w x else x.
Lemma wrap_extend sg w w' x : wrap w' (s_extend sg w w' x) = wrap w' (xt sg w x).
Proof. unfold s_extend, xt. destruct sg; auto. apply wrap_wrap. Qed.
Lemma mm_cvt_pack sg w v R a : mm_cvt sg w v R a = pack v R (fun i => xt sg w (lane w i a)).
Proof. destruct sg; reflexivity. Qed.
(** sign mask next to the value *)
Lemma sign_join w x : 0 < w -> 0 <= x < 2 ^ w ->
  wrap (2 * w) (x + 2 ^ w * wrap w (Z.shiftr (sgn w x) (w - 1))) = wrap (2 * w) (sgn w x).
Proof.
  intros Hw Hx. pose proof (pow2_pos (w - 1) ltac:(lia)) as Hp.
  assert (2 ^ w = 2 * 2 ^ (w - 1)) as E2 by (replace w with (Z.succ (w - 1)) at 1 by lia; apply Z.pow_succ_r; lia).
  rewrite Z.shiftr_div_pow2 by lia. unfold sgn. fold (wrap w x). rewrite (wrap_small w x) by auto.
  destruct (Z.ltb_spec x (2 ^ (w - 1))).
  - rewrite Z.div_small by lia. rewrite wrap_0. f_equal. lia.
  - replace ((x - 2 ^ w) / 2 ^ (w - 1)) with (-1) by (apply (Z.div_unique _ _ _ (x - 2 ^ (w - 1))); lia).
    rewrite wrap_m1 by lia. unfold ones. apply eq_mod_wrap. exists 1.
    replace (2 * w) with (w + w) by lia. rewrite Z.pow_add_r by lia. ring.
Qed.
Lemma sgn_hi8 x : 0 <= x < 2 ^ 8 -> Z.shiftr (sgn 16 (wrap 16 (0 + 2 ^ 8 * x))) 8 = sgn 8 x.
Proof.
  intros Hx. rewrite Z.shiftr_div_pow2 by lia. rewrite wrap_small by lia. unfold sgn.
  rewrite !Z.mod_small by lia. change (2 ^ (16 - 1)) with 32768. change (2 ^ (8 - 1)) with 128. change (2 ^ 8) with 256 in *. change (2 ^ 16) with 65536.
  destruct (Z.ltb_spec (0 + 256 * x) 32768), (Z.ltb_spec x 128); try lia.
  - rewrite Z.add_0_l, Z.mul_comm, Z.div_mul by lia. reflexivity.
  - replace (0 + 256 * x - 65536) with ((x - 256) * 256) by ring. apply Z.div_mul. lia.
Qed.
Lemma null_widen_ok sg w w' a : wpair w w' ->
  null_widen (ty sg w) (ty sg w') a = Ok (wide w w' 128 128 (s_extend sg w w') a).
Proof.
  intros HP. unfold null_widen, wide, ty. cbn [snd].
  replace (w' / w) with (128 / w / (128 / w')) by (destruct HP as [[-> [-> | [-> | ->]]] | [[-> [-> | ->]] | [-> ->]]]; reflexivity).
  assert (wok w' 128 = true /\ 0 < w /\ 0 < w') as (HW & Hw & Hw') by (destruct HP as [[-> [-> | [-> | ->]]] | [[-> [-> | ->]] | [-> ->]]]; repeat split; reflexivity).
  induction (zrange (128 / w / (128 / w'))) as [|j l IH]; auto.
  rewrite IH. cbn [bind map].
  unfold nloop. erewrite mkM_ok by (intros; cbn [bind]; reflexivity). cbn [bind snd]. unfold pack. do 2 f_equal.
  apply mk_ext. intros i Hi. unfold sto, ccast, el. cbn [snd]. rewrite wrap_wrap.
  rewrite wrap_extend. unfold cconv, xt. cbn [fst snd]. destruct sg.
  - rewrite !wrap_sgn by lia. reflexivity.
  - rewrite wrap_wrap, wrap_lane. reflexivity.
Qed.

(** ------------ ladders ------------ *)
Lemma lane_move8 a sh i : 0 <= sh -> 0 <= i -> i + sh < 16 -> lane 8 i (lsh 8 128 16 (p_move_l 16 sh) [a]) = lane 8 (i + sh) a.
Proof. exact (lane_move I8 a sh i). Qed.
Lemma lane_move16 a sh i : 0 <= sh -> 0 <= i -> i + sh < 8 -> lane 16 i (lsh 16 128 8 (p_move_l 8 sh) [a]) = lane 16 (i + sh) a.
Proof. exact (lane_move I16 a sh i). Qed.
Lemma lane_move32 a sh i : 0 <= sh -> 0 <= i -> i + sh < 4 -> lane 32 i (lsh 32 128 4 (p_move_l 4 sh) [a]) = lane 32 (i + sh) a.
Proof. exact (lane_move I32 a sh i). Qed.
Lemma lx128_8 q i a : 0 <= q -> 0 <= i < 16 -> lane 8 i (mm_extract128 q a) = lane 8 (q * 16 + i) a.
Proof. exact (lane_x128 I8 q i a). Qed.
Lemma lx128_16 q i a : 0 <= q -> 0 <= i < 8 -> lane 16 i (mm_extract128 q a) = lane 16 (q * 8 + i) a.
Proof. exact (lane_x128 I16 q i a). Qed.
Lemma lx128_32 q i a : 0 <= q -> 0 <= i < 4 -> lane 32 i (mm_extract128 q a) = lane 32 (q * 4 + i) a.
Proof. exact (lane_x128 I32 q i a). Qed.
Lemma lx256_8 q i a : 0 <= q -> 0 <= i < 32 -> lane 8 i (mm_extract256 q a) = lane 8 (q * 32 + i) a.
Proof. exact (lane_x256 I8 q i a). Qed.
Lemma lx256_16 q i a : 0 <= q -> 0 <= i < 16 -> lane 16 i (mm_extract256 q a) = lane 16 (q * 16 + i) a.
Proof. exact (lane_x256 I16 q i a). Qed.
Lemma lx256_32 q i a : 0 <= q -> 0 <= i < 8 -> lane 32 i (mm_extract256 q a) = lane 32 (q * 8 + i) a.
Proof. exact (lane_x256 I32 q i a). Qed.
Lemma lx64_8 q i a : 0 <= q -> 0 <= i < 8 -> lane 8 i (lane 64 q a) = lane 8 (q * 8 + i) a.
Proof. exact (lane_x64 I8 q i a). Qed.
Lemma lx64_16 q i a : 0 <= q -> 0 <= i < 4 -> lane 16 i (lane 64 q a) = lane 16 (q * 4 + i) a.
Proof. exact (lane_x64 I16 q i a). Qed.
Lemma lx64_32 q i a : 0 <= q -> 0 <= i < 2 -> lane 32 i (lane 64 q a) = lane 32 (q * 2 + i) a.
Proof. exact (lane_x64 I32 q i a). Qed.
Lemma zip_wide8 (hi : bool) a b : lsh 8 128 16 (p_zip 16 hi) [a; b] =
  pack 16 128 (fun i => let k := (if hi then 8 else 0) + i in lane 8 k a + 2 ^ 8 * lane 8 k b).
Proof. exact (zip_wide I8 hi a b (or_introl eq_refl)). Qed.
Lemma zip_wide16 (hi : bool) a b : lsh 16 128 8 (p_zip 8 hi) [a; b] =
  pack 32 128 (fun i => let k := (if hi then 4 else 0) + i in lane 16 k a + 2 ^ 16 * lane 16 k b).
Proof. exact (zip_wide I16 hi a b (or_intror (or_introl eq_refl))). Qed.
Lemma zip_wide32 (hi : bool) a b : lsh 32 128 4 (p_zip 4 hi) [a; b] =
  pack 64 128 (fun i => let k := (if hi then 2 else 0) + i in lane 32 k a + 2 ^ 32 * lane 32 k b).
Proof. exact (zip_wide I32 hi a b (or_intror (or_intror eq_refl))). Qed.
Lemma mv8_ok A n a : valid_arch A = true -> reg 128 a -> 0 < n < 16 -> i_move16_l A R128 n a = Ok (lsh 8 128 16 (p_move_l 16 n) [a]).
Proof. intros HV Ha Hn. apply (i_move_l_ok A I8 R128 n a HV eq_refl Ha); [cbn; lia|apply Z.eqb_neq; lia]. Qed.
Lemma mv16_ok A n a : valid_arch A = true -> reg 128 a -> 0 < n < 8 -> i_move8_l A R128 n a = Ok (lsh 16 128 8 (p_move_l 8 n) [a]).
Proof. intros HV Ha Hn. apply (i_move_l_ok A I16 R128 n a HV eq_refl Ha); [cbn; lia|apply Z.eqb_neq; lia]. Qed.
Lemma mv32_ok A n a : valid_arch A = true -> reg 128 a -> 0 < n < 4 -> i_move4_l A R128 n a = Ok (lsh 32 128 4 (p_move_l 4 n) [a]).
Proof. intros HV Ha Hn. apply (i_move_l_ok A I32 R128 n a HV eq_refl Ha); [cbn; lia|apply Z.eqb_neq; lia]. Qed.
Lemma zip_ok A e w n hi a b : valid_arch A = true -> w = eb e -> n = en e -> avail_et A e R128 = true -> reg 128 a -> reg 128 b ->
  i_zip A e R128 hi a b = Ok (lsh w 128 n (p_zip n hi) [a; b]).
Proof. intros HV -> -> HA Ha Hb. apply (i_zip_ok A e R128 hi a b); auto. Qed.
Lemma cons_eq {X} (x y : X) l m : x = y -> l = m -> x :: l = y :: m.
Proof. intros -> ->. reflexivity. Qed.
Lemma reg0 R : 0 <= R -> reg R 0. Proof. intros. unfold reg. pose proof (pow2_pos R H). lia. Qed.
Lemma x128_reg q a : reg 128 (mm_extract128 q a). Proof. apply lane_range. lia. Qed.

Ltac cvnorm :=
  match goal with |- cv _ _ _ ?s' _ ?k _ _ =>
    let v := eval vm_compute in s' in change s' with v; let kv := eval vm_compute in k in change k with kv end.
Ltac dnum := repeat match goal with |- context [Z.div ?x ?y] => let v := eval vm_compute in (x / y) in lazymatch v with Zpos _ => change (x / y) with v end end.
Ltac lpos := dnum; match goal with H : 0 <= ?i < ?n |- _ => let v := eval vm_compute in n in change n with v in H end; lia.
Ltac lane_norm := repeat first
  [ rewrite lane_move8 by lpos | rewrite lane_move16 by lpos | rewrite lane_move32 by lpos
  | rewrite lx128_8 by lpos | rewrite lx128_16 by lpos | rewrite lx128_32 by lpos
  | rewrite lx256_8 by lpos | rewrite lx256_16 by lpos | rewrite lx256_32 by lpos
  | rewrite lx64_8 by lpos | rewrite lx64_16 by lpos | rewrite lx64_32 by lpos ].
Ltac lane_eq := first [ reflexivity | match goal with |- context [lane ?w ?i ?a] => match goal with |- context [lane w ?j a] =>
  tryif constr_eq i j then fail else (replace i with j by lpos) end end; reflexivity ].
Ltac wleaf :=
  apply wide_cv; [reflexivity | reflexivity | reflexivity | intros; apply s_extend_range; lia | reflexivity |
    unfold wide; match goal with |- _ = map _ (zrange ?n) => let v := eval vm_compute in (zrange n) in change (zrange n) with v end;
    cbn [map rbits]; dnum; repeat (apply cons_eq; [|]); [..|reflexivity] ].
Lemma sj8 x : 0 <= x < 2 ^ 8 -> wrap 16 (x + 2 ^ 8 * wrap 8 (Z.shiftr (sgn 8 x) 7)) = wrap 16 (sgn 8 x).
Proof. intros. apply (sign_join 8); lia. Qed.
Lemma sj16 x : 0 <= x < 2 ^ 16 -> wrap 32 (x + 2 ^ 16 * wrap 16 (Z.shiftr (sgn 16 x) 15)) = wrap 32 (sgn 16 x).
Proof. intros. apply (sign_join 16); lia. Qed.
Lemma sj32 x : 0 <= x < 2 ^ 32 -> wrap 64 (x + 2 ^ 32 * wrap 32 (Z.shiftr (sgn 32 x) 31)) = wrap 64 (sgn 32 x).
Proof. intros. apply (sign_join 32); lia. Qed.
