(** C25, C42. *)
From Coq Require Import Btauto.
From Verif Require Import Model.Cpuid.
Open Scope Z_scope.

Lemma Ok_pair {X Y} (a a' : X) (b b' : Y) : Ok (a, b) = Ok (a', b') -> a = a' /\ b = b'.
Proof. intros H. inversion H. auto. Qed.
Lemma Ok_eq {X} (a a' : X) : Ok a = Ok a' -> a = a'.
Proof. intros H. inversion H. auto. Qed.
Lemma add_arch_bit b f a k : Z.testbit (add_arch b f a) k = Z.testbit a k || (b && (arch_bit f =? k)).
Proof.
  unfold add_arch, Arch. destruct b; cbn [andb]; [|rewrite orb_false_r; reflexivity].
  rewrite Z.lor_spec, Z.pow2_bits_eqb; [reflexivity|]. destruct f; cbn; lia.
Qed.
Lemma bitset_ok x k : 0 <= k -> bitset x k = Z.testbit x k.
Proof.
  intros Hk. unfold bitset.
  assert (Z.land x (2 ^ k) = if Z.testbit x k then 2 ^ k else 0) as ->.
  { apply Z.bits_inj'. intros i Hi. rewrite Z.land_spec, Z.pow2_bits_eqb by lia.
    destruct (k =? i) eqn:E.
    - apply Z.eqb_eq in E. subst i. rewrite andb_true_r. destruct (Z.testbit x k).
      + symmetry. apply Z.pow2_bits_true. lia.
      + symmetry. apply Z.testbit_0_l.
    - rewrite andb_false_r. destruct (Z.testbit x k); [|symmetry; apply Z.testbit_0_l].
      rewrite Z.pow2_bits_eqb by lia. symmetry. exact E. }
  destruct (Z.testbit x k); [|reflexivity]. rewrite (proj2 (Z.eqb_neq _ _)); [reflexivity|].
  apply Z.pow_nonzero; lia.
Qed.
Lemma xcr_six x : (Z.land x 6 =? 6) = Z.testbit x 1 && Z.testbit x 2.
Proof.
  apply eq_true_iff_eq. rewrite Z.eqb_eq, andb_true_iff. split.
  - intros H. split.
    + assert (Z.testbit (Z.land x 6) 1 = true) as H1 by (rewrite H; reflexivity).
      rewrite Z.land_spec, andb_true_iff in H1. tauto.
    + assert (Z.testbit (Z.land x 6) 2 = true) as H1 by (rewrite H; reflexivity).
      rewrite Z.land_spec, andb_true_iff in H1. tauto.
  - intros [H1 H2]. apply Z.bits_inj'. intros i Hi. rewrite Z.land_spec.
    destruct (Z.eq_dec i 1) as [->|N1]; [rewrite H1; reflexivity|].
    destruct (Z.eq_dec i 2) as [->|N2]; [rewrite H2; reflexivity|].
    replace (Z.testbit 6 i) with false; [apply andb_false_r|]. symmetry.
    destruct (Z.eq_dec i 0) as [->|]; [reflexivity|]. apply Z.bits_above_log2; [lia|]. cbn. lia.
Qed.

(** What the function reports, bit by bit, for every CPU on which it returns. *)
Definition xs_avail (c : cpu) : bool :=
  has_leaf c 1 && Z.testbit (r_ecx c 1) 26 && Z.testbit (xcr0 c) 1 && Z.testbit (xcr0 c) 2.
Definition reports (c : cpu) (f : isa) : bool :=
  match f with
  | POPCNT => implemented c POPCNT || (has_leaf c 1 && Z.testbit (r_ecx c 1) 20 && mfg_intel c)
  | AVX | AVX2 | AVX512F | AVX512BW | AVX512DQ | AVX512VL => implemented c f && xs_avail c
  | _ => implemented c f
  end.
Lemma leaf1_ok c a b : leaf1 c 0 = Ok (a, b) ->
  b = Z.testbit (r_ecx c 1) 26 && Z.testbit (xcr0 c) 1 && Z.testbit (xcr0 c) 2.
Proof.
  unfold leaf1. rewrite !bitset_ok, xcr_six by lia. destruct (Z.testbit (r_ecx c 1) 26); cbn.
  - destruct (xgetbv_traps c); cbn; [discriminate|]. intros H. injection H as _ H. auto.
  - intros H. injection H as _ H. auto.
Qed.
Theorem cpuid_reports : forall c a f, get_arch_raw_cpuid c = Ok a -> fam_of f = X86 ->
  Z.testbit a (arch_bit f) = reports c f.
Proof.
  intros c a f H Hf. unfold get_arch_raw_cpuid in H.
  assert (exists a1 xs, (if 1 <=? r_eax c 0 then leaf1 c 0 else Ok (0, false)) = Ok (a1, xs) /\
    xs = xs_avail c /\
    forall k, Z.testbit a1 k =
      (has_leaf c 1 && Z.testbit (r_edx c 1) 26 && (arch_bit SSE2 =? k)) ||
      (has_leaf c 1 && Z.testbit (r_ecx c 1) 0 && (arch_bit SSE3 =? k)) ||
      (has_leaf c 1 && Z.testbit (r_ecx c 1) 9 && (arch_bit SSSE3 =? k)) ||
      (has_leaf c 1 && Z.testbit (r_ecx c 1) 19 && (arch_bit SSE4_1 =? k)) ||
      (has_leaf c 1 && (Z.testbit (r_ecx c 1) 23 || (Z.testbit (r_ecx c 1) 20 && mfg_intel c)) && (arch_bit POPCNT =? k)) ||
      (has_leaf c 1 && Z.testbit (r_ecx c 1) 12 && (arch_bit FMA3 =? k)) ||
      (has_leaf c 1 && Z.testbit (r_ecx c 1) 28 && xs_avail c && (arch_bit AVX =? k))) as (a1 & xs & E & Hx & Hk).
  { unfold xs_avail, has_leaf. destruct (1 <=? r_eax c 0).
    - destruct (leaf1 c 0) as [[a1 xs]| |] eqn:E; [|discriminate|discriminate].
      exists a1, xs. split; [reflexivity|]. pose proof (leaf1_ok _ _ _ E) as Hx. split; [exact Hx|].
      unfold leaf1 in E. rewrite !bitset_ok, xcr_six in E by lia.
      assert (forall d, (let* xs := d in Ok (add_arch (Z.testbit (r_ecx c 1) 28 && xs) AVX
         (add_arch (Z.testbit (r_ecx c 1) 12) FMA3 (add_arch (Z.testbit (r_ecx c 1) 23) POPCNT
         (add_arch (Z.testbit (r_ecx c 1) 20 && mfg_intel c) POPCNT (add_arch (Z.testbit (r_ecx c 1) 19) SSE4_1
         (add_arch (Z.testbit (r_ecx c 1) 9) SSSE3 (add_arch (Z.testbit (r_ecx c 1) 0) SSE3
         (add_arch (Z.testbit (r_edx c 1) 26) SSE2 0))))))), xs)) = Ok (a1, xs) -> d = Ok xs) as Hd.
      { intros [d| |]; cbn; try discriminate. intros HH. injection HH as _ HH. congruence. }
      specialize (Hd _ E). rewrite Hd in E. cbn [bind] in E. apply Ok_pair in E. destruct E as [E _]. rewrite <- E. clear E Hd. intros k.
      rewrite !add_arch_bit, Z.testbit_0_l, Hx. cbn [andb orb].
      btauto.
    - exists 0, false. repeat split; auto. intros k. rewrite Z.testbit_0_l. reflexivity. }
  rewrite E in H. cbn [bind] in H. apply Ok_eq in H. rewrite <- H. clear H. subst xs.
  assert (forall (b : bool) x y k, Z.testbit (if b then x else y) k = if b then Z.testbit x k else Z.testbit y k) as Hif
    by (intros []; auto).
  rewrite !Hif, !add_arch_bit, !Hif, !add_arch_bit, !Hk, !bitset_ok by lia. clear Hk E Hif.
  unfold reports, implemented, has_ext, has_leaf.
  destruct f; try discriminate Hf; cbn [arch_bit]; simpl (_ =? _)%Z in *;
    rewrite ?andb_false_r, ?orb_false_r, ?andb_true_r; cbn [orb andb];
    repeat match goal with |- context[if ?b then ?x else ?x] => destruct b end;
    repeat match goal with |- context[7 <=? ?b] => destruct (7 <=? b) end;
    repeat match goal with |- context[1 <=? ?b] => destruct (1 <=? b) end;
    repeat match goal with |- context[0x80000001 <=? ?b] => destruct (0x80000001 <=? b) end;
    cbn [orb andb]; rewrite ?andb_false_r, ?orb_false_r; auto.
Qed.

(** The function returns on every CPU on which XSAVE is implied to be enabled by the OS. *)
Theorem cpuid_returns : forall c,
  (has_leaf c 1 && Z.testbit (r_ecx c 1) 26 = true -> osxsave c = true) ->
  exists a, get_arch_raw_cpuid c = Ok a.
Proof.
  intros c H. unfold get_arch_raw_cpuid, has_leaf in *. destruct (1 <=? r_eax c 0) eqn:E1.
  - unfold leaf1. rewrite (bitset_ok _ 26) by lia. unfold xgetbv_traps.
    destruct (Z.testbit (r_ecx c 1) 26) eqn:E2.
    + rewrite H by reflexivity. cbn. eauto.
    + cbn. eauto.
  - cbn. eauto.
Qed.
(** Otherwise it executes XGETBV although the OS has not enabled it. *)
Theorem cpuid_xgetbv_refuted : exists c, has_leaf c 1 = true /\ osxsave c = false /\ get_arch_raw_cpuid c = UB.
Proof. exists (mkCpu (fun l => if l =? 1 then (0, 0, 2 ^ 26, 2 ^ 26) else (1, 0, 0, 0)) 0). repeat split. Qed.

(** Soundness, as far as it holds: everything reported can be executed provided
    - XSAVE implies OSXSAVE and Intel's SSE4.2 flag implies POPCNT, and
    - the OS state of the extensions whose OS support is not checked is enabled. *)
Theorem cpuid_sound_partial : forall c a f, get_arch_raw_cpuid c = Ok a -> fam_of f = X86 ->
  (Z.testbit (r_ecx c 1) 26 = true -> Z.testbit (r_ecx c 1) 27 = true) ->
  (mfg_intel c = true -> Z.testbit (r_ecx c 1) 20 = true -> Z.testbit (r_ecx c 1) 23 = true) ->
  (In f [FMA3; FMA4; XOP] -> ymm_state c = true) ->
  (In f [AVX512F; AVX512BW; AVX512DQ; AVX512VL] -> ymm_state c = true -> zmm_state c = true) ->
  Z.testbit a (arch_bit f) = true -> executable c f = true.
Proof.
  intros c a f H Hf H1 H2 H3 H4 HB. rewrite (cpuid_reports c a f H Hf) in HB.
  assert (xs_avail c = true -> ymm_state c = true) as HY.
  { unfold xs_avail, ymm_state, osxsave. rewrite !andb_true_iff. intros (((A & B) & C) & D). auto. }
  unfold executable. unfold reports in HB.
  destruct f; try discriminate Hf; cbn [os_support];
    rewrite ?andb_true_r; rewrite ?andb_true_iff in *; try exact HB;
    try (split; [apply HB|apply HY; apply HB]);
    try (split; [apply HB|apply H4; [cbn; tauto|apply HY; apply HB]]);
    try (split; [apply HB|apply H3; cbn; tauto]).
  rewrite orb_true_iff in HB. destruct HB as [HB|HB]; [exact HB|].
  rewrite !andb_true_iff in HB. destruct HB as [[HB1 HB2] HB3]. cbn [implemented].
  rewrite HB1. cbn. auto.
Qed.
(** Completeness: everything that can be executed is reported. *)
Theorem cpuid_complete : forall c a f, get_arch_raw_cpuid c = Ok a -> fam_of f = X86 ->
  (Z.testbit (r_ecx c 1) 27 = true -> Z.testbit (r_ecx c 1) 26 = true) ->
  executable c f = true -> Z.testbit a (arch_bit f) = true.
Proof.
  intros c a f H Hf H1 HE. rewrite (cpuid_reports c a f H Hf).
  unfold executable in HE. rewrite andb_true_iff in HE. destruct HE as [HI HO].
  assert (ymm_state c = true -> xs_avail c = true) as HY.
  { unfold xs_avail, ymm_state, osxsave. rewrite !andb_true_iff. intros (((A & B) & C) & D). auto. }
  assert (zmm_state c = true -> ymm_state c = true) as HZ.
  { unfold zmm_state. rewrite !andb_true_iff. tauto. }
  unfold reports. destruct f; try discriminate Hf; cbn [os_support] in HO; auto; rewrite HI; cbn; auto.
Qed.

(** Refutations: extensions whose OS support is not checked. *)
Definition mk_cpu (ecx1 ebx7 ecxe xcr : Z) : cpu :=
  mkCpu (fun l => if l =? 0 then (7, 0, 0, 0) else if l =? 1 then (0, 0, ecx1, 2 ^ 26)
    else if l =? 7 then (0, ebx7, 0, 0) else if l =? 0x80000000 then (0x80000001, 0, 0, 0)
    else if l =? 0x80000001 then (0, 0, ecxe, 0) else (0, 0, 0, 0)) xcr.
(** the OS saves YMM but not ZMM state: AVX-512F is reported *)
Theorem cpuid_avx512_refuted : exists c a, get_arch_raw_cpuid c = Ok a /\ ymm_state c = true /\
  Z.testbit a (arch_bit AVX512F) = true /\ executable c AVX512F = false.
Proof. exists (mk_cpu (2^26 + 2^27 + 2^28) (2^5 + 2^16) 0 7). eexists. repeat split. Qed.
(** no YMM state at all: FMA3 and FMA4/XOP are reported *)
Theorem cpuid_fma_refuted : exists c a, get_arch_raw_cpuid c = Ok a /\ ymm_state c = false /\
  Z.testbit a (arch_bit FMA3) = true /\ executable c FMA3 = false /\
  Z.testbit a (arch_bit XOP) = true /\ executable c XOP = false /\
  Z.testbit a (arch_bit FMA4) = true /\ executable c FMA4 = false.
Proof. exists (mk_cpu (2^12 + 2^28) 0 (2^16 + 2^11) 0). eexists. repeat split. Qed.

(** Non-vacuity: a CPU with everything up to AVX-512VL enabled satisfies the hypotheses
    of [cpuid_sound_partial] for every extension. *)
Example cpuid_sound_case :
  let c := mk_cpu (2^0 + 2^9 + 2^12 + 2^19 + 2^20 + 2^23 + 2^26 + 2^27 + 2^28) (2^5 + 2^16 + 2^17 + 2^30 + 2^31) 0 0xe7 in
  zmm_state c = true /\ get_arch_raw_cpuid c = Ok 0x79fe /\
  forallb (executable c) [SSE2; SSE3; SSSE3; SSE4_1; POPCNT; AVX; AVX2; FMA3; AVX512F; AVX512VL] = true.
Proof. repeat split. Qed.

(** C42: the detection through __builtin_cpu_supports reports only extensions that are
    supported, whenever support is closed under the documented implications and
    AVX-512F processors have FMA (true of all existing ones, required nowhere). *)
Definition upward (sup : isa -> bool) : Prop := forall x y, needs x y -> x <> POPCNT -> sup x = true -> sup y = true.
Theorem gcc_builtin_sound : forall gcc5 sup f, upward sup -> fam_of f = X86 ->
  (sup AVX512F = true -> sup FMA3 = true) ->
  Z.testbit (get_arch_gcc_builtin gcc5 sup) (arch_bit f) = true -> sup f = true.
Proof.
  intros g sup f HU Hf HFMA. unfold upward in HU.
  pose proof (HU _ _ n_sse3). pose proof (HU _ _ n_ssse3). pose proof (HU _ _ n_sse41).
  pose proof (HU _ _ n_avx). pose proof (HU _ _ n_avx2). pose proof (HU _ _ n_512f). clear HU.
  unfold get_arch_gcc_builtin. cbn [fold_left].
  rewrite add_arch_bit.
  repeat match goal with H : ?a <> ?b -> _ |- _ => specialize (H ltac:(discriminate)) end.
  destruct (g && sup AVX512F) eqn:E0; [apply andb_true_iff in E0; destruct E0 as [_ E0]|
  destruct (sup AVX2) eqn:E1; [|destruct (sup AVX) eqn:E2; [|destruct (sup SSE4_1) eqn:E3; [|
  destruct (sup SSSE3) eqn:E4; [|destruct (sup SSE3) eqn:E5; [|destruct (sup SSE2) eqn:E6]]]]]];
    destruct f; try discriminate Hf; cbn; rewrite ?andb_true_r, ?andb_false_r; intros HB; try discriminate;
    auto 8.
Qed.
Theorem gcc_builtin_fma3_refuted : exists sup, upward sup /\ sup FMA3 = false /\
  Z.testbit (get_arch_gcc_builtin true sup) (arch_bit FMA3) = true.
Proof.
  exists (fun f => match f with FMA3 | FMA4 | XOP | AVX512BW | AVX512DQ | AVX512VL => false | _ => match fam_of f with X86 => true | _ => false end end).
  repeat split; try reflexivity. intros x y H _ Hx. destruct H; cbn in *; auto; discriminate.
Qed.
(** ... and everything supported up to AVX2 / AVX-512F is reported *)
Theorem gcc_builtin_complete : forall sup f, upward sup ->
  In f [SSE2; SSE3; SSSE3; SSE4_1; POPCNT; AVX; AVX2; AVX512F] -> sup f = true ->
  Z.testbit (get_arch_gcc_builtin true sup) (arch_bit f) = true.
Proof.
  intros sup f HU Hf Hs. unfold upward in HU.
  pose proof (HU _ _ n_sse3). pose proof (HU _ _ n_ssse3). pose proof (HU _ _ n_sse41).
  pose proof (HU _ _ n_avx). pose proof (HU _ _ n_avx2). pose proof (HU _ _ n_512f). clear HU.
  unfold get_arch_gcc_builtin. cbn [fold_left]. rewrite add_arch_bit.
  repeat match goal with H : ?a <> ?b -> _ |- _ => specialize (H ltac:(discriminate)) end.
  cbn [andb]. destruct (sup AVX512F) eqn:E0; [|
  destruct (sup AVX2) eqn:E1; [|destruct (sup AVX) eqn:E2; [|destruct (sup SSE4_1) eqn:E3; [|
  destruct (sup SSSE3) eqn:E4; [|destruct (sup SSE3) eqn:E5; [|destruct (sup SSE2) eqn:E6]]]]]];
    cbn in Hf; destruct Hf as [<-|[<-|[<-|[<-|[<-|[<-|[<-|[<-|[]]]]]]]]]; cbn; rewrite ?Hs; cbn; auto;
    exfalso; congruence.
Qed.
Example gcc_builtin_case :
  get_arch_gcc_builtin true (fun f => match f with SSE2 | SSE3 | POPCNT => true | _ => false end) = 0x26.
Proof. reflexivity. Qed.
