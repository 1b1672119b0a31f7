(** C37, C38: a kernel changes memory in the same way on every instruction set. *)
From Verif Require Import Model.Kernel Proof.ConvertP Thm.T_Memory Thm.T_Program Thm.T_SProgram.

Lemma vsize_regs A w T : valid_arch A = true -> vsize T ->
  exists c : nat, Convert.vlen A (wb w) T = c /\ Z.of_nat c * rbits (vreg A (wb w) T) = T /\ (0 < c)%nat.
Proof.
  intros HV [k ->]. unfold Convert.vlen.
  assert (exists c, 0 < c /\ 128 * 2 ^ Z.of_nat k = c * rbits (vreg A (wb w) (128 * 2 ^ Z.of_nat k))) as (c & Hc & E).
  { pose proof (pow2_pos (Z.of_nat k) ltac:(lia)). unfold vreg. destruct (Z.leb_spec (128 * 2 ^ Z.of_nat k) 128).
    - exists (2 ^ Z.of_nat k). split; cbn [rbits]; lia.
    - destruct k as [|k]; [cbn in *; lia|]. rewrite Nat2Z.inj_succ, Z.pow_succ_r in * by lia.
      pose proof (pow2_pos (Z.of_nat k) ltac:(lia)).
      destruct (fast_int A (wb w)); cbn [rbits].
      + exists (2 * 2 ^ Z.of_nat k). lia.
      + exists (2 ^ Z.of_nat k). lia.
      + destruct (Z.leb_spec (128 * (2 * 2 ^ Z.of_nat k)) 256); cbn [rbits]; [exists (2 ^ Z.of_nat k); lia|].
        destruct k as [|k]; [cbn in *; lia|]. rewrite Nat2Z.inj_succ, Z.pow_succ_r in * by lia.
        pose proof (pow2_pos (Z.of_nat k) ltac:(lia)). exists (2 ^ Z.of_nat k). lia. }
  set (R := rbits _) in *. assert (0 < R) by (unfold R; destruct (vreg A (wb w) _); reflexivity).
  rewrite E, Z.div_mul by lia. exists (Z.to_nat c). repeat split; lia.
Qed.
(** the number of lanes and of bytes *)
Lemma lanes_of_regs w s c T : Z.of_nat c * rbits s = T -> Mem.vlen (wb w) s c = Z.to_nat (T / wb w) /\ vbytes s c = T / 8.
Proof.
  intros <-. unfold Mem.vlen, nl, vbytes. split.
  - rewrite <- (Nat2Z.id (_ * _)), Nat2Z.inj_mul. f_equal.
    assert (rbits s = rbits s / wb w * wb w /\ 0 < wb w /\ 0 <= rbits s / wb w) as (E & Hp & Hq) by (destruct s, w; repeat split; try reflexivity; discriminate).
    rewrite Z2Nat.id by auto. rewrite E at 2. rewrite Z.mul_assoc, Z.div_mul by lia. reflexivity.
  - assert (rbits s = rbits s / 8 * 8) as E by (destruct s; reflexivity). rewrite E at 2. rewrite Z.mul_assoc, Z.div_mul by lia. reflexivity.
Qed.
Lemma al64 s p : p mod 64 = 0 -> p mod (rbits s / 8) = 0.
Proof.
  intros H. assert (p = 64 * (p / 64)) as E by (pose proof (Z.div_mod p 64 ltac:(lia)); lia). rewrite E.
  destruct s; cbn [rbits]; [change (128 / 8) with 16|change (256 / 8) with 32|change (512 / 8) with 64].
  - replace (64 * (p / 64)) with (4 * (p / 64) * 16) by ring. apply Z.mod_mul. lia.
  - replace (64 * (p / 64)) with (2 * (p / 64) * 32) by ring. apply Z.mod_mul. lia.
  - rewrite Z.mul_comm. apply Z.mod_mul. lia.
Qed.
Lemma operand_nth {X Y} (P : X -> Y -> Prop) (d : X) (d' : Y) l l' : Forall2 P l l' -> l <> [] -> forall k, P (operand d l k) (operand d' l' k).
Proof.
  intros HF Hn k. unfold operand. destruct HF as [|x y l l' Hxy HF]; [contradiction|]. cbn [hd].
  destruct k as [|k]; cbn [nth]; auto. revert k. clear Hn. induction HF as [|x' y' l l' Hxy' HF IH]; intros [|k]; cbn [nth]; auto.
Qed.

Section K.
  Variables (A : arch) (w : ew) (T : Z).
  Hypotheses (HV : valid_arch A = true) (HT : vsize T).
  Notation N := (Z.to_nat (T / wb w)).
  Lemma load_list_ok m ps : Forall (fun p => good_array T p m) ps ->
    exists vs, load_list A (iet w) (vreg A (wb w) T) (Convert.vlen A (wb w) T) ps m = Ok vs /\
      Forall2 (fun v p => typed A (wb w) T v /\ tlanes A (wb w) T v = array (wb w) p N m) vs ps.
  Proof.
    assert (avail_et A (iet w) (vreg A (wb w) T) = true) as HA by (pose proof (vreg_avail A (wb w) T HV); destruct w; auto).
    destruct (vsize_regs A w T HV HT) as (c & Ec & Lc & Hc). destruct (lanes_of_regs w _ _ _ Lc) as [EN EB].
    assert (eb (iet w) = wb w) as Eb by (destruct w; reflexivity).
    induction 1 as [|p ps [Hp Ha] _ (vs & E & HF)]; [exists []; split; [reflexivity|constructor]|].
    destruct (load_spec A (iet w) _ HV HA c p m) as (v & Ev & Wv & Lv & Av); [split; [apply al64; auto|rewrite EB; auto]|].
    exists (v :: vs). cbn [load_list]. rewrite Ec in *. rewrite Ev, E. cbn [bind]. split; [reflexivity|]. constructor; auto.
    rewrite Eb in Av. split; [split; auto; rewrite Lv; auto|]. unfold tlanes. rewrite Av, EN. reflexivity.
  Qed.
  Theorem kernel_ok e ps q m : s_fine w e -> ps <> [] -> Forall (fun p => good_array T p m) ps -> good_array T q m ->
    exists m', run_kernel A w T e ps q m = Ok m' /\
      array (wb w) q N m' = kernel_result (wb w) N e ps m /\ only_changes q (T / 8) m m'.
  Proof.
    intros HF Hn HP [Hq Ha].
    assert (avail_et A (iet w) (vreg A (wb w) T) = true) as HA by (pose proof (vreg_avail A (wb w) T HV); destruct w; auto).
    assert (eb (iet w) = wb w) as Eb by (destruct w; reflexivity).
    destruct (load_list_ok m ps HP) as (vs & E & HVs).
    assert (vs <> []) as Hvs by (intros ->; inversion HVs; subst; contradiction).
    pose proof (operand_nth _ (@nil Z) 0 _ _ HVs Hvs) as HO.
    destruct (shuffle_program_spec A w T e (operand [] vs) HV HT HF (fun k => proj1 (HO k))) as (r & Er & [Wr Lr] & Lanes).
    destruct (lanes_of_regs w _ _ _ Lr) as [EN EB].
    destruct (store_spec A (iet w) _ HV HA q r m Wr) as (m' & Em & Am & OC); [split; [apply al64; auto|rewrite EB; auto]|].
    exists m'. unfold run_kernel. cbv zeta. rewrite E. cbn [bind]. rewrite Er. cbn [bind]. split; [exact Em|].
    rewrite Eb, EN in Am. rewrite EB in OC. split; [|exact OC]. rewrite Am. unfold new_all, kernel_result.
    change (lanes (wb w) (vreg A (wb w) T) r) with (tlanes A (wb w) T r). rewrite Lanes. apply map_ext. intros i.
    apply s_val_ext; auto. intros k j. rewrite (proj2 (HO k)). reflexivity.
  Qed.
End K.

(** Each output element is the program's value of the input elements; nothing else changes. *)
Theorem kernel_spec : forall A w T e ps q m, valid_arch A = true -> vsize T -> s_fine w e -> ps <> [] ->
  Forall (fun p => good_array T p m) ps -> good_array T q m ->
  exists m', run_kernel A w T e ps q m = Ok m' /\
    array (wb w) q (Z.to_nat (T / wb w)) m' = kernel_result (wb w) (Z.to_nat (T / wb w)) e ps m /\ only_changes q (T / 8) m m'.
Proof. intros A w T e ps q m HV HT HF Hn HP Hq. apply kernel_ok; auto. Qed.

(** equal numbers have equal bytes *)
Lemma number_bytes k m m' p : accessible m p (Z.of_nat k) -> accessible m' p (Z.of_nat k) -> number k m p = number k m' p ->
  forall x, p <= x < p + Z.of_nat k -> m x = m' x.
Proof.
  revert p. induction k as [|k IH]; intros p Ha Ha' E x Hx; [lia|]. cbn [number] in E. rewrite Nat2Z.inj_succ in *.
  destruct (Ha p ltac:(lia)) as (b & Eb & Rb). destruct (Ha' p ltac:(lia)) as (b' & Eb' & Rb').
  unfold byte_at in E. rewrite Eb, Eb' in E.
  assert (b = b' /\ number k m (p + 1) = number k m' (p + 1)) as [<- E2] by lia.
  destruct (Z.eq_dec x p) as [->|Hne]; [congruence|].
  apply (IH (p + 1)); auto; try lia; intros y Hy; [apply Ha|apply Ha']; lia.
Qed.
Lemma array_bytes w N m m' p : accessible m p (Z.of_nat N * (wb w / 8)) -> accessible m' p (Z.of_nat N * (wb w / 8)) ->
  array (wb w) p N m = array (wb w) p N m' -> forall x, p <= x < p + Z.of_nat N * (wb w / 8) -> m x = m' x.
Proof.
  intros Ha Ha' E x Hx. assert (0 < wb w / 8) as Hb by (destruct w; reflexivity). set (b := wb w / 8) in *.
  set (i := (x - p) / b). assert (0 <= i) by (apply Z.div_pos; lia). assert (i < Z.of_nat N) by (apply Z.div_lt_upper_bound; lia).
  pose proof (Z.div_mod (x - p) b ltac:(lia)) as DM. pose proof (Z.mod_pos_bound (x - p) b Hb). fold i in DM.
  assert (number (Z.to_nat b) m (p + i * b) = number (Z.to_nat b) m' (p + i * b)) as EN.
  { unfold array in E. assert (forall mm, nth (Z.to_nat i) (map (fun i => number (Z.to_nat (wb w / 8)) mm (p + Z.of_nat i * (wb w / 8))) (seq 0 N)) 0 = number (Z.to_nat b) mm (p + i * b)) as HN.
    { intros mm. rewrite (nth_indep _ 0 ((fun i => number (Z.to_nat (wb w / 8)) mm (p + Z.of_nat i * (wb w / 8))) O)) by (rewrite map_length, seq_length; lia).
      rewrite (map_nth (fun i => number (Z.to_nat (wb w / 8)) mm (p + Z.of_nat i * (wb w / 8)))), seq_nth by lia. cbn [Nat.add]. rewrite Z2Nat.id by lia. reflexivity. }
    rewrite <- (HN m), <- (HN m'), E. reflexivity. }
  apply (number_bytes (Z.to_nat b) m m' (p + i * b)); auto; rewrite ?Z2Nat.id by lia; try (intros y Hy; first [apply Ha|apply Ha']; nia); nia.
Qed.
(** C38: run by two configurations, a kernel leaves the same memory: every byte. *)
Theorem kernels_are_portable : forall A A' w T e ps q m, valid_arch A = true -> valid_arch A' = true -> vsize T -> s_fine w e -> ps <> [] ->
  Forall (fun p => good_array T p m) ps -> good_array T q m ->
  exists m1 m2, run_kernel A w T e ps q m = Ok m1 /\ run_kernel A' w T e ps q m = Ok m2 /\ forall x, m1 x = m2 x.
Proof.
  intros A A' w T e ps q m HV HV' HT HF Hn HP Hq.
  destruct (kernel_spec A w T e ps q m HV HT HF Hn HP Hq) as (m1 & E1 & A1 & O1 & Acc1).
  destruct (kernel_spec A' w T e ps q m HV' HT HF Hn HP Hq) as (m2 & E2 & A2 & O2 & Acc2).
  exists m1, m2. split; auto. split; auto. intros x.
  assert (Z.of_nat (Z.to_nat (T / wb w)) * (wb w / 8) = T / 8) as EN.
  { destruct HT as [k ->]. pose proof (pow2_pos (Z.of_nat k) ltac:(lia)).
    destruct w; cbn [wb]; [change (8 / 8) with 1|change (16 / 8) with 2|change (32 / 8) with 4|change (64 / 8) with 8].
    - replace (128 * 2 ^ Z.of_nat k) with (16 * 2 ^ Z.of_nat k * 8) by ring. rewrite !Z.div_mul by lia. lia.
    - replace (128 * 2 ^ Z.of_nat k) with (8 * 2 ^ Z.of_nat k * 16) by ring. rewrite Z.div_mul by lia.
      replace (8 * 2 ^ Z.of_nat k * 16) with (16 * 2 ^ Z.of_nat k * 8) by ring. rewrite Z.div_mul by lia. lia.
    - replace (128 * 2 ^ Z.of_nat k) with (4 * 2 ^ Z.of_nat k * 32) by ring. rewrite Z.div_mul by lia.
      replace (4 * 2 ^ Z.of_nat k * 32) with (16 * 2 ^ Z.of_nat k * 8) by ring. rewrite Z.div_mul by lia. lia.
    - replace (128 * 2 ^ Z.of_nat k) with (2 * 2 ^ Z.of_nat k * 64) by ring. rewrite Z.div_mul by lia.
      replace (2 * 2 ^ Z.of_nat k * 64) with (16 * 2 ^ Z.of_nat k * 8) by ring. rewrite Z.div_mul by lia. lia. }
  destruct (Z.lt_ge_cases x q) as [Hx|Hx]; [rewrite O1, O2 by auto; reflexivity|].
  destruct (Z.lt_ge_cases x (q + T / 8)) as [Hx2|Hx2]; [|rewrite O1, O2 by auto; reflexivity].
  apply (array_bytes w (Z.to_nat (T / wb w)) m1 m2 q); rewrite ?EN; auto. rewrite A1, A2. reflexivity.
Qed.
(** a kernel adding a vector to its mirror image, in place: bytes of [ramp] *)
Definition kernel_mem : mem := fun q => if (0 <=? q) && (q <? 192) then Some ((q * q) mod 251) else None.
Example kernel_case :
  s_fine W32 (SBin BAdd (SVar 0) (SSh1 (HPermute4 3 2 1 0) (SVar 1))) /\
  Forall (fun p => good_array 256 p kernel_mem) [0; 64] /\ good_array 256 64 kernel_mem /\
  exists m1 m2, run_kernel arch_sse2 W32 256 (SBin BAdd (SVar 0) (SSh1 (HPermute4 3 2 1 0) (SVar 1))) [0; 64] 64 kernel_mem = Ok m1 /\
    run_kernel arch_avx2 W32 256 (SBin BAdd (SVar 0) (SSh1 (HPermute4 3 2 1 0) (SVar 1))) [0; 64] 64 kernel_mem = Ok m2 /\
    map m1 (zrange 192) = map m2 (zrange 192) /\ m1 64 = Some (0 + 5776 mod 251) /\ m1 32 = Some (1024 mod 251) /\ m1 96 = Some (9216 mod 251).
Proof.
  assert (forall p, 0 <= p -> p + 32 <= 192 -> accessible kernel_mem p 32) as Ha.
  { intros p Hp Hp2 q Hq. unfold kernel_mem. assert ((0 <=? q) && (q <? 192) = true) as -> by (apply andb_true_intro; split; [apply Z.leb_le|apply Z.ltb_lt]; lia).
    exists ((q * q) mod 251). split; auto. pose proof (Z.mod_pos_bound (q * q) 251 ltac:(lia)). lia. }
  split; [cbn; repeat split; auto; lia|]. split; [repeat constructor; try (apply Ha; lia)|]. split; [split; [reflexivity|apply Ha; lia]|].
  eexists _, _. split; [vm_compute; reflexivity|]. split; [vm_compute; reflexivity|]. repeat split; vm_compute; reflexivity.
Qed.
