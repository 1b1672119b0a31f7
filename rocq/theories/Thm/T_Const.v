(** C39: constants and broadcasts (splatN<i>: Thm/T_Shuffle.v). *)
From Verif Require Import Proof.SetSplatP.

(** element k of make_uint(l0, l1, ..): the list repeated cyclically *)
Definition cyclic (l : list Z) (k : Z) : Z := nth (Z.to_nat (k mod Z.of_nat (length l))) l 0.

Lemma lanes_pack w s f v : wok w (rbits s) = true ->
  lanes w s (pack w (rbits s) f :: v) = map (fun k => wrap w (f k)) (zrange (rbits s / w)) ++ lanes w s v.
Proof.
  intros H. destruct (wok_spec _ _ H) as (Hw & HR & E & En). unfold lanes. cbn [flat_map]. f_equal.
  unfold elems, zrange. rewrite map_map. rewrite <- En, Nat2Z.id. apply map_ext_in. intros i Hi. apply in_seq in Hi.
  apply lane_pack; auto. lia.
Qed.
Lemma zrange_app n m : 0 <= n -> 0 <= m -> zrange (n + m) = zrange n ++ map (fun k => n + k) (zrange m).
Proof.
  intros. unfold zrange. rewrite Z2Nat.inj_add, seq_app, map_app by lia. f_equal.
  cbn [Nat.add]. rewrite <- (Nat.add_0_r (Z.to_nat n)) at 1.
  generalize 0%nat. generalize (Z.to_nat m). intros k. induction k as [|k IH]; intros b; [reflexivity|].
  cbn [seq map]. f_equal; [lia|]. rewrite <- (IH (S b)). do 2 f_equal. lia.
Qed.
Lemma make_const_from_ok A w s l : valid_arch A = true -> avail_int A (wb w) s = true -> (length l > 0)%nat ->
  forall n off, exists vr, make_const_from A w s l off n = Ok vr /\ wfv s vr /\ length vr = n /\
    lanes (wb w) s vr = map (fun k => wrap (wb w) (cyclic l (off + k))) (zrange (Z.of_nat n * (rbits s / wb w))).
Proof.
  intros HV HA Hl. assert (0 < rbits s / wb w) as HP by (destruct s, w; reflexivity).
  induction n as [|n IH]; intros off.
  - exists []. repeat split; constructor.
  - destruct (IH (off + rbits s / wb w)) as (vr & E & Wr & L & EL). cbn [make_const_from].
    rewrite i_make_const_ok by auto. cbn [bind]. rewrite E. cbn [bind]. eexists. split; [reflexivity|].
    split; [constructor; [apply pack_reg, wok_lib|exact Wr]|]. split; [cbn; lia|].
    rewrite lanes_pack by apply wok_lib. rewrite EL.
    replace (Z.of_nat (S n) * (rbits s / wb w)) with (rbits s / wb w + Z.of_nat n * (rbits s / wb w)) by lia.
    rewrite zrange_app, map_app, map_map by lia. f_equal. apply map_ext. intros. do 2 f_equal. lia.
Qed.
(** make_uint / make_int with any number of arguments, any vector length *)
Theorem make_const_spec : forall A w s l n, valid_arch A = true -> avail_int A (wb w) s = true -> (length l > 0)%nat ->
  exists vr, make_const A w s l n = Ok vr /\ wfv s vr /\ length vr = n /\
    lanes (wb w) s vr = map (fun k => (cyclic l k) mod 2 ^ wb w) (zrange (Z.of_nat n * (rbits s / wb w))).
Proof.
  intros A w s l n HV HA Hl. destruct (make_const_from_ok A w s l HV HA Hl n 0) as (vr & H). exists vr. exact H.
Qed.
(** splat(x): every lane is x converted to the element type, whatever the bits an
    uninitialised register holds ([junk]). *)
Definition splat_result (e : et) (s : rsz) (n : nat) (x : Z) (r : res vec) : Prop :=
  exists vr, r = Ok vr /\ wfv s vr /\ length vr = n /\
    lanes (eb e) s vr = repeat (x mod 2 ^ eb e) (n * nl (eb e) (rbits s)).
Lemma wok_et e s : wok (eb e) (rbits s) = true. Proof. destruct e, s; reflexivity. Qed.
Lemma set_splat_gen A e s n junk x : valid_arch A = true -> avail_et A e s = true -> reg 128 junk ->
  splat_def A e s (wrap (eb e) x) -> splat_result e s n x (set_splat A e s n junk x).
Proof.
  intros HV HA Hj HD. unfold set_splat. rewrite i_set_splat_ok; auto.
  2:{ apply wrap_range. destruct e; cbn; lia. }
  cbn [bind]. rewrite splat_wrap by apply wok_et. eexists. split; [reflexivity|]. split; [|split].
  - apply Forall_forall. intros r Hr. apply repeat_spec in Hr. subst. apply splat_reg, wok_et.
  - apply repeat_length.
  - induction n as [|n IH]; [reflexivity|]. cbn [repeat Nat.mul]. rewrite repeat_app, <- IH.
    change (lanes (eb e) s (?a :: ?v)) with (elems (eb e) (nl (eb e) (rbits s)) a ++ lanes (eb e) s v). f_equal.
    unfold elems. pose proof (wok_et e s) as HW. destruct (wok_spec _ _ HW) as (Hw & HR & E & En).
    transitivity (map (fun _ : nat => x mod 2 ^ eb e) (seq 0 (nl (eb e) (rbits s)))).
    + apply map_ext_in. intros i Hi. apply in_seq in Hi. apply lane_splat_g; auto. lia.
    + generalize 0%nat. generalize (nl (eb e) (rbits s)). intros k. induction k as [|k IHk]; intros b; [reflexivity|].
      cbn [seq map repeat]. f_equal. apply IHk.
Qed.
Theorem splat_spec : forall A e s n junk x, valid_arch A = true -> avail_et A e s = true -> reg 128 junk ->
  e <> I8 -> splat_result e s n x (set_splat A e s n junk x).
Proof. intros. apply set_splat_gen; auto. intros E. contradiction. Qed.
(** 8-bit lanes: on x86 before AVX2 a 128-bit splat multiplies the promoted uint8_t by
    0x01010101 in int (set_splat.h:39), which overflows from 128 on.  Missing from the
    full statement: those values in that configuration. *)
Theorem splat_u8_partial : forall A s n junk x, valid_arch A = true -> avail_int A 8 s = true -> reg 128 junk ->
  (s = R128 -> use_sse2 A = true -> use_avx2 A = false -> x mod 256 < 128) ->
  splat_result I8 s n x (set_splat A I8 s n junk x).
Proof. intros. apply set_splat_gen; auto. intros _. assumption. Qed.
Theorem splat_u8_refuted : forall junk n, set_splat arch_sse2 I8 R128 n junk 128 = UB.
Proof. intros. vm_compute. reflexivity. Qed.
Example const_case :
  make_const arch_avx2 W16 R128 [1; 2] 2 = Ok [0x00020001000200010002000100020001; 0x00020001000200010002000100020001] /\
  set_splat arch_sse2 I64 R128 1 0 (2 ^ 63 + 5) = Ok [(2 ^ 63 + 5) * (2 ^ 64 + 1)] /\
  set_splat arch_sse2 I8 R128 1 0 127 = Ok [0x7f7f7f7f7f7f7f7f7f7f7f7f7f7f7f7f].
Proof. repeat split; vm_compute; reflexivity. Qed.
