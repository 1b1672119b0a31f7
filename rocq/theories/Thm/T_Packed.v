(** C23: load_packedN and store_packedN (core/load_packed2.h, load_packed3.h, load_packed4.h,
    store_packed2.h, store_packed3.h, store_packed4.h) de-interleave and interleave N vectors,
    for every element type, vector length, address and memory contents. *)
From Verif Require Export Proof.PackedP3 Thm.T_Memory.

Lemma list_nth_ext (l l' : list Z) : length l = length l' -> (forall i, (i < length l)%nat -> nth i l 0 = nth i l' 0) -> l = l'.
Proof. intros H1 H2. apply (nth_ext l l' 0 0 H1). intros n Hn. apply H2, Hn. Qed.
Lemma every_nth_len N j l k : (0 < N)%nat -> length l = (N * k)%nat -> length (every_nth N j l) = k.
Proof. intros HN HL. unfold every_nth. rewrite map_length, seq_length, HL, Nat.mul_comm, Nat.div_mul; lia. Qed.
Lemma nth_every N j l k i : (0 < N)%nat -> length l = (N * k)%nat -> (i < k)%nat -> nth i (every_nth N j l) 0 = nth (N * i + j) l 0.
Proof.
  intros HN HL Hi. unfold every_nth. replace (length l / N)%nat with k by (rewrite HL, Nat.mul_comm, Nat.div_mul; lia).
  rewrite (nth_map' _ _ _ 0%nat) by (rewrite seq_length; lia). rewrite seq_nth by lia. reflexivity.
Qed.
Lemma nth_array w p n m i : (i < n)%nat -> nth i (array w p n m) 0 = number (Z.to_nat (w / 8)) m (p + Z.of_nat i * (w / 8)).
Proof. intros Hi. unfold array. rewrite (nth_map' _ _ _ 0%nat) by (rewrite seq_length; lia). rewrite seq_nth by lia. reflexivity. Qed.

Lemma lanes_inj w s v v' : wok w (rbits s) = true -> wfv s v -> wfv s v' -> length v = length v' -> lanes w s v = lanes w s v' -> v = v'.
Proof.
  intros W Hv. revert v'. induction v as [|a v IH]; destruct v' as [|b v']; cbn [length]; intros Hv' L E; try discriminate; auto.
  inversion_clear Hv; inversion_clear Hv'. rewrite !lanes_cons in E.
  destruct (app_len_inv _ _ _ _ E) as [E1 E2]; [rewrite !elems_length; reflexivity|].
  apply (f_equal2 cons); [|apply IH; auto].
  apply (reg_lanes w (rbits s)); auto. intros i Hi. destruct (wok_spec _ _ W) as (Hw & HR & E0 & En).
  apply (f_equal (fun l => nth (Z.to_nat i) l 0)) in E1. rewrite !nth_elems in E1 by lia. rewrite !Z2Nat.id in E1 by lia. exact E1.
Qed.

Section T.
  Variables (A : arch) (e : et) (s : rsz).
  Hypotheses (HV : valid_arch A = true) (HA : avail_et A e s = true).
  Notation w := (eb e).
  Notation R := (rbits s).
  Let Hw1 : wok w R = true := wokR e s.
  Let Hw2 : wok 8 w = true := wok8e e.

  Lemma loop_load_ok N : (2 <= N <= 4)%nat -> forall k p m, p mod (R / 8) = 0 -> accessible m p (Z.of_nat N * vbytes s k) ->
    loop_load (i_load_packed A N e s) (R / 8 * Z.of_nat N) k p m =
    Ok (map (fun i => deint w R N (p + Z.of_nat i * (R / 8 * Z.of_nat N)) m) (seq 0 k)).
  Proof.
    intros HN. induction k; intros p m Hp Ha; [reflexivity|]. cbn [loop_load]. unfold vbytes in Ha. fold R in *.
    assert (0 < R / 8) by (destruct s; reflexivity).
    rewrite i_load_packed_ok; auto; [|apply (acc_sub _ _ _ _ _ Ha); nia]. cbn [bind].
    rewrite IHk.
    - cbn [bind]. apply f_equal. cbn [seq map]. rewrite <- seq_shift, map_map. apply (f_equal2 cons).
      + f_equal. lia.
      + apply map_ext. intros i. f_equal. lia.
    - rewrite (Z.mul_comm (R / 8)), Z.mod_add by lia. exact Hp.
    - unfold vbytes. apply (acc_sub _ _ _ _ _ Ha); nia.
  Qed.
  Lemma loads_gen N k : (2 <= N <= 4)%nat -> loads_packed w s k N (fun p m => load_packed A N e s k p m).
  Proof.
    intros HN p m Hp Ha. unfold load_packed, assume_aligned, aligned. rewrite Hp. cbn [Z.eqb require].
    rewrite loop_load_ok by auto. cbn [bind]. eexists. split; [reflexivity|].
    unfold rows. split; [rewrite map_length, seq_length; reflexivity|]. intros j Hj.
    rewrite (nth_map' _ _ _ 0%nat) by (rewrite seq_length; lia). rewrite seq_nth by lia. cbn [Nat.add]. rewrite map_map.
    destruct (wok_spec _ _ Hw1) as (Hw & HR & E & En), (wok_div _ _ Hw1 Hw2) as (Hk & Rd & E3).
    set (n := R / w) in *. assert (0 < n) by nia.
    set (vec_j := map _ (seq 0 k)).
    assert (HVj : vec_j = map (fun i => pack w R (fun x => number (Z.to_nat (w / 8)) m (p + Z.of_nat i * (R / 8 * Z.of_nat N) + (Z.of_nat N * x + Z.of_nat j) * (w / 8)))) (seq 0 k)).
    { unfold vec_j. apply map_ext. intros i. unfold deint. rewrite (nth_map' _ _ _ 0%nat) by (rewrite seq_length; lia). rewrite seq_nth by lia. reflexivity. }
    rewrite HVj. clear vec_j HVj. set (v := map _ (seq 0 k)).
    assert (LV : length v = k) by (unfold v; rewrite map_length, seq_length; reflexivity).
    split; [|split; [exact LV|]].
    - unfold wfv, v. apply Forall_forall. intros x Hx. apply in_map_iff in Hx as (i & <- & _). apply pack_reg, Hw1.
    - assert (LA : length (array w p (N * vlen w s k) m) = (N * vlen w s k)%nat) by apply array_len.
      assert (LL : length (lanes w s v) = vlen w s k) by (rewrite lanes_length, LV; unfold vlen; lia).
      apply list_nth_ext; [rewrite LL; symmetry; apply every_nth_len; [lia|exact LA]|].
      rewrite LL. intros x Hx. rewrite (nth_every N j _ (vlen w s k)) by (first [exact LA | lia]).
      rewrite nth_array by nia.
      assert (Hxz : Z.of_nat x < Z.of_nat k * n) by (unfold vlen in Hx; nia).
      replace x with (Z.to_nat (Z.of_nat x)) at 1 by lia. rewrite nth_lanes by (auto; lia). fold n.
      assert (0 <= Z.of_nat x / n < Z.of_nat k) as Hd by (split; [apply Z.div_pos; lia | apply Z.div_lt_upper_bound; nia]).
      pose proof (Z.mod_pos_bound (Z.of_nat x) n ltac:(lia)) as Hm. pose proof (Z.div_mod (Z.of_nat x) n ltac:(lia)) as D.
      unfold v. rewrite (nth_map' _ _ _ 0%nat) by (rewrite seq_length; lia). rewrite seq_nth by lia. cbn [Nat.add]. rewrite Z2Nat.id by lia.
      rewrite lane_pack by (auto; fold n; lia).
      replace (p + Z.of_nat x / n * (R / 8 * Z.of_nat N) + (Z.of_nat N * (Z.of_nat x mod n) + Z.of_nat j) * (w / 8))
        with (p + Z.of_nat (N * x + j) * (w / 8)).
      2:{ rewrite Rd. fold n. rewrite Nat2Z.inj_add, Nat2Z.inj_mul. rewrite D at 1. ring. }
      apply wrap_small.
      pose proof (number_range (Z.to_nat (w / 8)) m (p + Z.of_nat (N * x + j) * (w / 8))) as NR.
      rewrite Z2Nat.id in NR by lia. rewrite <- E3 in NR. apply NR.
      apply (acc_sub _ _ _ _ _ Ha); [nia|]. unfold vbytes. rewrite Rd. fold n. rewrite Nat2Z.inj_add, Nat2Z.inj_mul.
      assert (Z.of_nat N * Z.of_nat x + Z.of_nat j + 1 <= Z.of_nat N * (Z.of_nat k * n)) by nia. nia.
  Qed.
  (** load_packed2/3/4 *)
  Theorem load_packed2_spec k : loads_packed w s k 2 (fun p m => load_packed A 2 e s k p m).
  Proof. apply loads_gen. lia. Qed.
  Theorem load_packed3_spec k : loads_packed w s k 3 (fun p m => load_packed A 3 e s k p m).
  Proof. apply loads_gen. lia. Qed.
  Theorem load_packed4_spec k : loads_packed w s k 4 (fun p m => load_packed A 4 e s k p m).
  Proof. apply loads_gen. lia. Qed.

  (** what the array holds after the loop *)
  Definition elem (N n : Z) (ls : list (list Z)) (x : Z) : Z :=
    lane w (x mod (n * N) / N) (nth (Z.to_nat (x mod (n * N) mod N)) (nth (Z.to_nat (x / (n * N))) ls []) 0).
  Lemma loop_store_ok N : (2 <= N <= 4)%nat -> forall ls p m,
    Forall (fun l => length l = N /\ Forall (reg R) l) ls -> p mod needs A s N = 0 ->
    accessible m p (Z.of_nat N * vbytes s (length ls)) ->
    exists m', loop_store (i_store_packed A e s) (R / 8 * Z.of_nat N) p ls m = Ok m' /\
      (forall x, 0 <= x < Z.of_nat N * Z.of_nat (vlen w s (length ls)) ->
         number (Z.to_nat (w / 8)) m' (p + x * (w / 8)) = elem (Z.of_nat N) (R / w) ls x) /\
      only_changes p (Z.of_nat N * vbytes s (length ls)) m m'.
  Proof.
    intros HN.
    destruct (wok_spec _ _ Hw1) as (Hw & HR & E & En), (wok_div _ _ Hw1 Hw2) as (Hk & Rd & E3).
    destruct (wok_mul w R (Z.of_nat N) Hw1 ltac:(lia)) as (X1 & X2 & _).
    destruct (wok_mul 8 R (Z.of_nat N) (wok8R s) ltac:(lia)) as (Y1 & Y2 & _).
    set (n := R / w) in *. assert (0 < n) by nia. set (NZ := Z.of_nat N) in *. assert (0 < R / 8) as R8 by (destruct s; reflexivity). assert (0 < NZ) by (unfold NZ; lia).
    induction ls as [|l ls IH]; intros p m HF Hp Ha; cbn [loop_store].
    - exists m. split; [reflexivity|]. split; [cbn; intros; lia|]. split; [auto|]. intros q Hq. unfold vbytes in Hq. cbn in Hq. lia.
    - inversion_clear HF as [|yy ll [HL HFl] HFs]. unfold vbytes in *. cbn [length] in *.
      assert (accessible m p (NZ * (R / 8))) as A1 by (apply (acc_sub _ _ _ _ _ Ha); nia).
      destruct (i_store_packed_ok A e s HV HA p l m) as (m1 & E1 & Hm1); auto.
      { rewrite HL. exact HN. } { rewrite HL. exact Hp. } { rewrite HL. exact A1. }
      rewrite E1. cbn [bind]. rewrite HL in Hm1. fold NZ in Hm1.
      assert (accessible m p (R * NZ / 8)) as A1' by (rewrite Y2, Z.mul_comm; exact A1).
      pose proof (only_put _ _ _ _ _ _ _ A1' Hm1) as O1. rewrite Y2 in O1.
      destruct (IH (p + R / 8 * NZ) m1) as (m2 & E2 & H2 & O2); auto.
      + unfold needs in *. assert (0 < R / 8) by (destruct s; reflexivity).
        destruct N as [|[|[|?]]]; try lia.
        * destruct s; [|rewrite (Z.mul_comm (_ / 8)), Z.mod_add by (cbn; lia); exact Hp..].
          unfold NZ. change (rbits R128 / 8 * Z.of_nat 2) with 32. destruct (_ || _).
          -- replace (p + 32) with (p + 2 * 16) by lia. rewrite Z.mod_add by lia. exact Hp.
          -- replace (p + 32) with (p + 1 * 32) by lia. rewrite Z.mod_add by lia. exact Hp.
        * rewrite (Z.mul_comm (R / 8)), Z.mod_add by lia. exact Hp.
      + eapply only_acc; [exact O1|]. apply (acc_sub _ _ _ _ _ Ha); nia.
      + exists m2. split; [exact E2|]. split.
        * intros x Hx. unfold vlen in Hx. destruct (Z_lt_dec x (n * NZ)) as [Hlt | Hge].
          -- transitivity (number (Z.to_nat (w / 8)) m1 (p + x * (w / 8))).
             { apply number_ext. intros i Hi. rewrite Z2Nat.id in Hi by lia. unfold byte_at. rewrite (proj1 O2); auto. left. rewrite Rd. fold n. nia. }
             pose proof (array_put w (R * NZ) p _ _ m m1 X1 Hw2 A1' Hm1) as EA. cbn [all] in EA.
             assert (HI : (Z.to_nat x < nl w (R * NZ))%nat) by (unfold nl; rewrite X2; nia).
             apply (f_equal (fun a => nth (Z.to_nat x) a 0)) in EA. rewrite nth_array in EA by exact HI.
             rewrite (nth_map' _ _ _ 0%nat) in EA by (rewrite seq_length; exact HI). rewrite seq_nth in EA by exact HI. cbn [Nat.add] in EA.
             rewrite !Z2Nat.id in EA by lia. rewrite EA. unfold inter. rewrite HL. fold NZ.
             rewrite lane_pack by (auto; rewrite X2; lia). rewrite wrap_lane. unfold elem.
             rewrite (Z.mod_small x (n * NZ)), (Z.div_small x (n * NZ)) by lia. reflexivity.
          -- specialize (H2 (x - n * NZ)). unfold vlen in H2.
             replace (p + x * (w / 8)) with (p + R / 8 * NZ + (x - n * NZ) * (w / 8)) by (rewrite Rd; fold n; ring).
             rewrite H2 by nia. unfold elem. replace x with (x - n * NZ + 1 * (n * NZ)) at 4 5 6 by ring.
             rewrite Z.mod_add, Z.div_add by nia.
             assert (0 <= (x - n * NZ) / (n * NZ)) by (apply Z.div_pos; nia).
             replace (Z.to_nat ((x - n * NZ) / (n * NZ) + 1)) with (S (Z.to_nat ((x - n * NZ) / (n * NZ)))) by lia. reflexivity.
        * destruct O1 as [O1 P1], O2 as [O2 P2]. split.
          -- intros q Hq. rewrite O2, O1; auto; nia.
          -- intros q Hq. destruct (Z_lt_dec q (p + R / 8 * NZ)).
             ++ rewrite O2 by lia. apply P1. lia.
             ++ apply P2. nia.
  Qed.
  Lemma stores_gen N k : (2 <= N <= 4)%nat -> stores_packed w s k N (needs A s N) (fun p vs m => store_packed A e s k p vs m).
  Proof.
    intros HN p vs m HL HF Hp Ha. unfold store_packed.
    assert (p mod (R / 8) = 0) as Hp1.
    { unfold needs in Hp. destruct N as [|[|[|?]]]; auto. destruct s; auto. cbn [rbits]. change (128 / 8) with 16.
      destruct (_ || _); auto. apply Z.mod_divide in Hp; [|lia]. apply Z.mod_divide; [lia|]. destruct Hp as [z ->]. exists (z * 2). ring. }
    unfold assume_aligned, aligned. rewrite Hp1. cbn [Z.eqb require]. rewrite HL.
    assert (LC : length (columns k vs) = k) by (unfold columns; rewrite map_length, seq_length; reflexivity).
    destruct (loop_store_ok N HN (columns k vs) p m) as (m' & E' & HX & O); rewrite ?LC; auto.
    { unfold columns. apply Forall_forall. intros l Hl. apply in_map_iff in Hl as (i & <- & Hi). apply in_seq in Hi. rewrite map_length. split; auto.
      apply Forall_forall. intros x Hx. apply in_map_iff in Hx as (v & <- & Hv). rewrite Forall_forall in HF. destruct (HF v Hv) as [Hwf Hlen].
      unfold wfv in Hwf. rewrite Forall_forall in Hwf. apply Hwf, nth_In. lia. }
    rewrite LC in *. exists m'. split; [exact E'|]. split; [|exact O].
    intros j Hj.
    destruct (wok_spec _ _ Hw1) as (Hw & HR & E & En), (wok_div _ _ Hw1 Hw2) as (Hk & Rd & E3).
    set (n := R / w) in *. assert (0 < n) by nia.
    assert (Hvj : wfv s (nth j vs []) /\ length (nth j vs []) = k) by (rewrite Forall_forall in HF; apply HF, nth_In; rewrite HL; exact Hj).
    destruct Hvj as [_ Hvl].
    assert (LA : length (array w p (N * vlen w s k) m') = (N * vlen w s k)%nat) by apply array_len.
    assert (LE : length (every_nth N j (array w p (N * vlen w s k) m')) = vlen w s k) by (apply every_nth_len; [lia|exact LA]).
    apply list_nth_ext; [rewrite LE, lanes_length, Hvl; unfold vlen; lia|]. rewrite LE. intros x Hx.
    rewrite (nth_every N j _ (vlen w s k)) by (first [exact LA | lia]). rewrite nth_array by nia.
    rewrite HX by nia. assert (Hxz : Z.of_nat x < Z.of_nat k * n) by (unfold vlen in Hx; nia).
    replace x with (Z.to_nat (Z.of_nat x)) at 2 by lia. rewrite nth_lanes by (auto; lia). fold n.
    rewrite Nat2Z.inj_add, Nat2Z.inj_mul. set (X := Z.of_nat x) in *. set (NZ := Z.of_nat N) in *. set (J := Z.of_nat j).
    assert (0 <= J < NZ) as HJ by (unfold J, NZ; lia).
    assert (0 <= X / n < Z.of_nat k) as Hd by (split; [apply Z.div_pos; lia | apply Z.div_lt_upper_bound; nia]).
    pose proof (Z.mod_pos_bound X n ltac:(lia)) as Hm. pose proof (Z.div_mod X n ltac:(lia)) as D.
    assert (M1 : (NZ * X + J) / NZ = X) by (rewrite Z.mul_comm, Z.div_add_l, Z.div_small by lia; lia).
    assert (M2 : (NZ * X + J) mod NZ = J) by (rewrite Z.add_comm, Z.mul_comm, Z.mod_add, Z.mod_small by lia; lia).
    assert (M3 : (NZ * X + J) mod (n * NZ) = J + NZ * (X mod n)) by (rewrite Z.mul_comm, Z.mul_comm with (n := n), Z.rem_mul_r by lia; rewrite (Z.mul_comm X), M1, M2; reflexivity).
    unfold elem. rewrite M3. rewrite Z.mul_comm with (n := n), <- Z.div_div, M1 by lia.
    replace ((J + NZ * (X mod n)) / NZ) with (X mod n) by (rewrite Z.mul_comm, Z.div_add, Z.div_small by lia; lia).
    replace ((J + NZ * (X mod n)) mod NZ) with J by (rewrite Z.mul_comm, Z.mod_add, Z.mod_small by lia; lia).
    f_equal. unfold columns. rewrite (nth_map' _ _ _ 0%nat) by (rewrite seq_length; lia). rewrite seq_nth by lia. cbn [Nat.add].
    unfold J. rewrite Nat2Z.id. rewrite (nth_map' _ vs j []) by (rewrite HL; exact Hj). reflexivity.
  Qed.
  (** store_packed3/4 *)
  Theorem store_packed3_spec k : stores_packed w s k 3 (R / 8) (fun p vs m => store_packed A e s k p vs m).
  Proof. exact (stores_gen 3 k ltac:(lia)). Qed.
  Theorem store_packed4_spec k : stores_packed w s k 4 (R / 8) (fun p vs m => store_packed A e s k p vs m).
  Proof. exact (stores_gen 4 k ltac:(lia)). Qed.
  (** store_packed2.  PARTIAL: with 128-bit registers the address must be aligned to 32 bytes
      (instead of the documented 16) unless the target is NULL or 64-bit NEON; see
      store_packed2_refuted. *)
  Theorem store_packed2_partial k :
    stores_packed w s k 2 (match s with R128 => if use_null A || use_neon64 A then 16 else 32 | _ => R / 8 end)
      (fun p vs m => store_packed A e s k p vs m).
  Proof. exact (stores_gen 2 k ltac:(lia)). Qed.

  (** what store_packedN writes is what load_packedN reads *)
  Theorem packed_roundtrip N k p vs m : (2 <= N <= 4)%nat -> length vs = N -> Forall (fun v => wfv s v /\ length v = k) vs ->
    p mod (Z.max 32 (R / 8)) = 0 -> accessible m p (Z.of_nat N * vbytes s k) ->
    exists m', store_packed A e s k p vs m = Ok m' /\ load_packed A N e s k p m' = Ok vs.
  Proof.
    intros HN HL HF Hp Ha.
    assert (p mod needs A s N = 0 /\ p mod (R / 8) = 0) as [Hp1 Hp2].
    { destruct s; cbn [rbits] in Hp; [change (Z.max 32 (128 / 8)) with 32 in Hp|change (Z.max 32 (256 / 8)) with 32 in Hp|change (Z.max 32 (512 / 8)) with 64 in Hp];
      unfold needs; cbn [rbits]; destruct N as [|[|[|?]]]; try lia; try (split; exact Hp);
      (apply Z.mod_divide in Hp; [|lia]); destruct Hp as [z ->]; split; try destruct (_ || _);
        first [apply (Z.mod_mul z 32); discriminate | replace (z * 32) with (z * 2 * 16) by ring; apply (Z.mod_mul (z * 2) 16); discriminate]. }
    destruct (stores_gen N k HN p vs m HL HF Hp1 Ha) as (m' & E & HX & O).
    exists m'. split; [exact E|].
    destruct (loads_gen N k HN p m' Hp2) as (vs' & E' & HL' & HY).
    { eapply only_acc; [exact O|exact Ha]. }
    rewrite E'. apply f_equal. apply (nth_ext _ _ [] []); [etransitivity; [exact HL'|symmetry; exact HL]|]. intros j Hj0. assert (Hj : (j < N)%nat) by (rewrite <- HL'; exact Hj0).
    destruct (HY j Hj) as (W & L & EL). rewrite HX in EL by exact Hj.
    assert (wfv s (nth j vs []) /\ length (nth j vs []) = k) as [W' L'] by (rewrite Forall_forall in HF; apply HF, nth_In; rewrite HL; exact Hj).
    apply (lanes_inj w s); auto; etransitivity; [exact L|symmetry; exact L'].
  Qed.
End T.

(** store_packed2 of one 128-bit register on SSE2: UB at an address that is 16-aligned only,
    although the whole array is accessible (store_packed2.h:239 asserts 32). *)
Theorem store_packed2_refuted : exists A e p vs m, valid_arch A = true /\ avail_et A e R128 = true /\
  length vs = 2%nat /\ Forall (fun v => wfv R128 v /\ length v = 1%nat) vs /\
  p mod 16 = 0 /\ accessible m p (2 * vbytes R128 1) /\ store_packed A e R128 1 p vs m = UB.
Proof.
  exists arch_sse2, I32, 16, [[0]; [0]], (ramp 16 32).
  split; [reflexivity|]. split; [reflexivity|]. split; [reflexivity|].
  split. { repeat constructor; vm_compute; discriminate. }
  split; [reflexivity|]. split; [apply ramp_acc|]. reflexivity.
Qed.

(** A concrete case: six 64-bit elements 0x0706.., de-interleaved by load_packed3. *)
Example packed_example :
  (exists vs, load_packed arch_sse2 3 I64 R128 1 16 (ramp 16 48) = Ok vs /\
     map (lanes 64 R128) vs = [[0x0706050403020100; 0x1f1e1d1c1b1a1918]; [0x0f0e0d0c0b0a0908; 0x2726252423222120]; [0x1716151413121110; 0x2f2e2d2c2b2a2928]]) /\
  16 mod (rbits R128 / 8) = 0 /\ accessible (ramp 16 48) 16 (3 * vbytes R128 1).
Proof.
  split; [|split; [reflexivity|apply ramp_acc]].
  destruct (load_packed3_spec arch_sse2 I64 R128 eq_refl eq_refl 1 16 (ramp 16 48) eq_refl (ramp_acc 16 48)) as (vs & E & L & H).
  exists vs. split; [exact E|].
  destruct vs as [|a [|b [|c [|? ?]]]]; try discriminate L.
  pose proof (proj2 (proj2 (H 0%nat ltac:(lia)))) as H0. pose proof (proj2 (proj2 (H 1%nat ltac:(lia)))) as H1.
  pose proof (proj2 (proj2 (H 2%nat ltac:(lia)))) as H2. cbn [nth] in H0, H1, H2. cbn [map]. change 64 with (eb I64). rewrite H0, H1, H2. vm_compute. reflexivity.
Qed.
