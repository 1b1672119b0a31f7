(** C46: floating-point min, max, clamp; integer clamp.  C30: bitonic_sort of float32<8>. *)
From Verif Require Import Proof.FloatsP3 Proof.FMinMaxP Spec.FloatOrd Proof.BitonicP Thm.T_MinMax Thm.T_Shuffle Thm.T_Shuffle2 Base.ShufLift.
From Coq Require Import Lia.

Section T.
  Variables (A : arch) (d : bool) (s : rsz).
  Hypotheses (HV : valid_arch A = true) (HA : avail_flt A s = true).
  Notation w := (fw d).
  Notation z := (fz (ftz A d) w).
  (** what every configuration computes: where the vector unit flushes denormals the operands
      are flushed *)
  Theorem min_float_flush : picks2 w s (min_f A d s) (fun x y r => chooses_min w (z x) (z y) r).
  Proof.
    destruct (i_fmin_ok A d s HV HA) as (f & E & F & C). exists f. split; [|intros; apply C].
    apply lift2; auto. 
  Qed.
  Theorem max_float_flush : picks2 w s (max_f A d s) (fun x y r => chooses_max w (z x) (z y) r).
  Proof.
    destruct (i_fmax_ok A d s HV HA) as (f & E & F & C). exists f. split; [|intros; apply C].
    apply lift2; auto.
  Qed.
  (** IEEE configurations.  Missing: 32-bit NEON and AltiVec without VSX (refuted below). *)
  Theorem min_float_partial : ftz A d = false -> picks2 w s (min_f A d s) (chooses_min w).
  Proof. intros HZ. destruct min_float_flush as (f & C & P). exists f. split; [exact C|]. unfold fz in P. rewrite HZ in P. exact P. Qed.
  Theorem max_float_partial : ftz A d = false -> picks2 w s (max_f A d s) (chooses_max w).
  Proof. intros HZ. destruct max_float_flush as (f & C & P). exists f. split; [exact C|]. unfold fz in P. rewrite HZ in P. exact P. Qed.
  Lemma zipw3_of (f g : Z -> Z -> Z) (la lb lc : list Z) : length la = length lb -> length la = length lc ->
    zipw g (zipw f la lc) lb = zipw3 (fun v lo hi => g (f v hi) lo) la lb lc.
  Proof.
    revert lb lc. induction la as [|a la IH]; intros [|b lb] [|c lc] H1 H2; try discriminate; [reflexivity|].
    cbn in *. f_equal. apply IH; lia.
  Qed.
  Theorem clamp_float_partial : ftz A d = false -> picks3 w s (clamp_f A d s) (chooses_clamp w).
  Proof.
    intros HZ. destruct (min_float_partial HZ) as (f & Cf & Pf). destruct (max_float_partial HZ) as (g & Cg & Pg).
    exists (fun v lo hi => g (f v hi) lo). split.
    - intros v lo hi Wv Wl Wh L1 L2. destruct (Cf v hi Wv Wh L2) as (m & Em & Wm & Lm & EL).
      destruct (Cg m lo Wm Wl ltac:(lia)) as (r & Er & Wr & Lr & ER). exists r. unfold clamp_f. rewrite Em. cbn [bind].
      split; [exact Er|]. split; [exact Wr|]. split; [lia|]. rewrite ER, EL. apply zipw3_of; rewrite !lanes_length; lia.
    - intros v lo hi Hv Hl Hh Nv Nl Nh Hle. destruct (Pf v hi Hv Hh Nv Nh) as [Cm Vm].
      assert (f_nan w (f v hi) = false) as Nm by (destruct Cm as [-> | ->]; auto).
      assert (0 <= f v hi < 2 ^ w) as Hm by (destruct Cm as [-> | ->]; auto).
      destruct (Pg (f v hi) lo Hm Hl Nm Nl) as [Cr Vr]. split.
      + destruct Cr as [-> | ->]; [|auto]. destruct Cm as [-> | ->]; auto.
      + rewrite Vr, Vm. destruct (Z.ltb_spec (f_val w v) (f_val w lo)); destruct (Z.ltb_spec (f_val w hi) (f_val w v)); lia.
  Qed.
End T.
(** AltiVec without VSX: the smaller of two denormals is 0 *)
Theorem min_float_ftz_refuted : exists va vb vr, wfv R128 va /\ wfv R128 vb /\ length va = length vb /\
  min_f arch_altivec false R128 va vb = Ok vr /\
  ~ chooses_min 32 (nth 0 (lanes 32 R128 va) 0) (nth 0 (lanes 32 R128 vb) 0) (nth 0 (lanes 32 R128 vr) 0).
Proof.
  exists [1], [2], [0].
  split; [apply wfv_cons; split; [split; vm_compute; [discriminate|reflexivity]|constructor]|].
  split; [apply wfv_cons; split; [split; vm_compute; [discriminate|reflexivity]|constructor]|].
  split; [reflexivity|]. split; [vm_compute; reflexivity|]. vm_compute. intros H. destruct (H eq_refl eq_refl) as [[H1|H1] _]; discriminate.
Qed.

(** Integer clamp, wherever min and max exist (64-bit lanes: see C06) *)
Theorem clamp_partial : forall A (sg : bool) w s, valid_arch A = true -> avail_int A (wb w) s = true -> minmax_exists A w s ->
  let val := if sg then sgn (wb w) else (fun x => x) in
  forall v lo hi, wfv s v -> wfv s lo -> wfv s hi -> length v = length lo -> length v = length hi ->
  Forall2 (fun l h => val l <= val h) (lanes (wb w) s lo) (lanes (wb w) s hi) ->
  exists vr, clamp_i A sg w s v lo hi = Ok vr /\ wfv s vr /\ length vr = length v /\
    lanes (wb w) s vr = zipw3 (std_clamp val) (lanes (wb w) s v) (lanes (wb w) s lo) (lanes (wb w) s hi).
Proof.
  intros A sg w s HV HA HO val v lo hi Wv Wl Wh L1 L2 HB.
  assert (exists f g, computes2 (wb w) s (min A sg w s) f /\ computes2 (wb w) s (max A sg w s) g /\
    forall x l h, 0 <= x < 2 ^ wb w -> 0 <= l < 2 ^ wb w -> 0 <= h < 2 ^ wb w -> val l <= val h -> g (f x h) l = std_clamp val x l h) as (f & g & Cf & Cg & HF).
  { destruct sg.
    - exists (s_min_s (wb w)), (s_max_s (wb w)). split; [apply min_signed_partial; auto|]. split; [apply max_signed_partial; auto|].
      intros x l h Hx Hl Hh Hle. unfold val, s_min_s, s_max_s, std_clamp in *.
      assert (0 < wb w) as Hp by (destruct w; reflexivity).
      fold (wrap (wb w) (Z.min (sgn (wb w) x) (sgn (wb w) h))). 
      fold (wrap (wb w) (Z.max (sgn (wb w) (wrap (wb w) (Z.min (sgn (wb w) x) (sgn (wb w) h)))) (sgn (wb w) l))).
      rewrite sgn_wrap by lia.
      pose proof (sgn_range (wb w) x Hp). pose proof (sgn_range (wb w) h Hp). rewrite sgn_id by lia.
      assert (forall u, 0 <= u < 2 ^ wb w -> wrap (wb w) (sgn (wb w) u) = u) as WS by (intros u Hu; rewrite wrap_sgn by lia; apply wrap_small; lia).
      destruct (Z.ltb_spec (sgn (wb w) x) (sgn (wb w) l)); [|destruct (Z.ltb_spec (sgn (wb w) h) (sgn (wb w) x))].
      + rewrite Z.max_r by lia. apply WS; auto.
      + rewrite Z.min_r, Z.max_l by lia. apply WS; auto.
      + rewrite Z.min_l, Z.max_l by lia. apply WS; auto.
    - exists s_min_u, s_max_u. split; [apply min_unsigned_partial; auto|]. split; [apply max_unsigned_partial; auto|].
      intros x l h Hx Hl Hh Hle. unfold val, s_min_u, s_max_u, std_clamp in *.
      destruct (Z.ltb_spec x l); [lia|]. destruct (Z.ltb_spec h x); lia. }
  destruct (Cf v hi Wv Wh L2) as (m & Em & Wm & Lm & EL).
  destruct (Cg m lo Wm Wl ltac:(lia)) as (r & Er & Wr & Lr & ER). exists r. unfold clamp_i. rewrite Em. cbn [bind].
  split; [exact Er|]. split; [exact Wr|]. split; [lia|]. rewrite ER, EL.
  assert (forall u, wfv s u -> Forall (fun x => 0 <= x < 2 ^ wb w) (lanes (wb w) s u)) as HR.
  { intros u _. unfold lanes, elems. rewrite Forall_forall. intros x Hx. apply in_flat_map in Hx as (q & _ & Hq).
    apply in_map_iff in Hq as (i & <- & _). apply lane_range. destruct w; discriminate. }
  pose proof (HR v Wv) as Rv. pose proof (HR lo Wl) as Rl. pose proof (HR hi Wh) as Rh.
  assert (length (lanes (wb w) s v) = length (lanes (wb w) s lo)) as EE by (rewrite !lanes_length; lia).
  clear - HF HB Rv Rl Rh EE. revert HB Rv Rl Rh EE. generalize (lanes (wb w) s v), (lanes (wb w) s lo), (lanes (wb w) s hi).
  intros la lb lc HB. revert la. induction HB as [|b c lb lc Hbc HB IH]; intros [|a la] Rv Rl Rh EE; try discriminate; [reflexivity|].
  cbn. inversion Rv; inversion Rl; inversion Rh; subst. f_equal; [apply HF; auto|]. apply IH; auto.
Qed.

(** bitonic_sort of float32<8> without NaN *)
Section B.
  Variable A : arch.
  Hypothesis HV : valid_arch A = true.
  Notation s := (sf32x8 A).
  Notation z := (fz (ftz A false) 32).
  Notation D := (fun x => 0 <= x < 2 ^ 32 /\ f_nan 32 x = false).
  Notation K := (fun x => f_val 32 (z x)).
  Lemma sf_av : avail_flt A s = true.
  Proof. unfold sf32x8. destruct (use_avx A) eqn:E; auto. Qed.
  Lemma sf_two : s = R128 \/ s = R256.
  Proof. unfold sf32x8. destruct (use_avx A); auto. Qed.
  Lemma z_idem x : z (z x) = z x.
  Proof.
    unfold fz. destruct (ftz A false); [|reflexivity]. unfold f_flush at 1.
    assert (f_denormal 32 (f_flush 32 x) = false) as ->; [|reflexivity].
    unfold f_denormal at 1. pose proof (f_mag_flush false R128 x) as E. change (fw false) with 32 in E. rewrite E.
    destruct (f_denormal 32 x) eqn:ED; [reflexivity|]. exact ED.
  Qed.
  Lemma nan_z x : f_nan 32 (z x) = f_nan 32 x.
  Proof. exact (f_nan_z A false R128 x). Qed.
  Lemma ran_z x : 0 <= x < 2 ^ 32 -> 0 <= z x < 2 ^ 32.
  Proof. intros H. exact (fz_ran A false x H). Qed.
  Lemma zip_D (g : Z -> Z -> Z) la lb : (forall x y, D x -> D y -> D (g x y)) -> Forall D la -> Forall D lb -> Forall D (zipw g la lb).
  Proof.
    intros Hg HA. revert lb. induction HA; intros lb HB; cbn; [constructor|]. destruct HB; constructor; auto.
  Qed.
  Lemma h_p4 s0 s1 s2 s3 : 0 <= s0 < 4 -> 0 <= s1 < 4 -> 0 <= s2 < 4 -> 0 <= s3 < 4 ->
    computesS1 32 s 4 (permute4 A F32 s s0 s1 s2 s3) (p_permute4 s0 s1 s2 s3).
  Proof. intros. apply (permute4_spec A F32 s); auto. apply sf_av. Qed.
  Lemma h_s4 s0 s1 s2 s3 : 0 <= s0 < 8 -> 0 <= s1 < 8 -> 0 <= s2 < 8 -> 0 <= s3 < 8 ->
    computesS2 32 s 4 (shuffle4x2 A F32 s s0 s1 s2 s3) (p_shuffle4x2 s0 s1 s2 s3).
  Proof. intros. apply (shuffle4x2_spec A F32 s); auto. apply sf_av. Qed.
  Lemma mk_okv v : wfv s v -> length (lanes 32 s v) = 8%nat -> Forall (fun x => f_nan 32 x = false) (lanes 32 s v) -> okv s D v (lanes 32 s v).
  Proof.
    intros W L N. split; auto. split.
    - rewrite lanes_length in L. unfold len. destruct sf_two as [E|E]; rewrite E in *; [change (nl 32 (rbits R128)) with 4%nat in L|change (nl 32 (rbits R256)) with 8%nat in L]; lia.
    - split; auto. rewrite Forall_forall in *. intros x Hx. split; [|apply N; exact Hx].
      unfold lanes, elems in Hx. apply in_flat_map in Hx as (r & _ & Hr).
      apply in_map_iff in Hr as (i & <- & _). apply lane_range. lia.
  Qed.
  Lemma network : exists fmn fmx,
    (forall va vb la lb, okv s D va la -> okv s D vb lb -> exists vr, min_f A false s va vb = Ok vr /\ okv s D vr (zipw fmn la lb)) /\
    (forall va vb la lb, okv s D va la -> okv s D vb lb -> exists vr, max_f A false s va vb = Ok vr /\ okv s D vr (zipw fmx la lb)) /\
    (forall x y, D x -> D y -> D (fmn x y) /\ K (fmn x y) = Z.min (K x) (K y)) /\
    (forall x y, D x -> D y -> D (fmx x y) /\ K (fmx x y) = Z.max (K x) (K y)).
  Proof.
    destruct (min_float_flush A false s HV sf_av) as (f & Cf & Pf). destruct (max_float_flush A false s HV sf_av) as (g & Cg & Pg).
    change (fw false) with 32 in *.
    assert (forall x y, D x -> D y -> D (f x y) /\ K (f x y) = Z.min (K x) (K y)) as Kf.
    { intros x y [Rx Nx] [Ry Ny]. destruct (Pf x y Rx Ry) as [C V]; [rewrite nan_z; assumption..|].
      assert (z (f x y) = f x y) as EZ by (destruct C as [-> | ->]; apply z_idem). rewrite EZ. split; [|exact V].
      destruct C as [-> | ->]; rewrite nan_z; auto using ran_z. }
    assert (forall x y, D x -> D y -> D (g x y) /\ K (g x y) = Z.max (K x) (K y)) as Kg.
    { intros x y [Rx Nx] [Ry Ny]. destruct (Pg x y Rx Ry) as [C V]; [rewrite nan_z; assumption..|].
      assert (z (g x y) = g x y) as EZ by (destruct C as [-> | ->]; apply z_idem). rewrite EZ. split; [|exact V].
      destruct C as [-> | ->]; rewrite nan_z; auto using ran_z. }
    exists f, g. split; [|split; [|split; assumption]].
    - intros va vb la lb (W & L & E & HD) (W' & L' & E' & HD'). destruct (Cf va vb W W' ltac:(lia)) as (vr & E1 & W1 & L1 & E2).
      exists vr. split; auto. split; auto. split; [lia|]. subst la lb. split; auto. apply zip_D; auto. intros. apply Kf; auto.
    - intros va vb la lb (W & L & E & HD) (W' & L' & E' & HD'). destruct (Cg va vb W W' ltac:(lia)) as (vr & E1 & W1 & L1 & E2).
      exists vr. split; auto. split; auto. split; [lia|]. subst la lb. split; auto. apply zip_D; auto. intros. apply Kg; auto.
  Qed.
  Notation numbers v := (Forall (fun x => f_nan 32 x = false) (lanes 32 s v)).
  Theorem bitonic_sort_float_asc_spec va : wfv s va -> length (lanes 32 s va) = 8%nat -> numbers va ->
    exists vr, fsort_asc A va = Ok vr /\ wfv s vr /\ length vr = length va /\
      sorts_val_asc (fun x => f_val 32 (z x)) (lanes 32 s va) (lanes 32 s vr).
  Proof.
    intros W L N. pose proof (mk_okv va W L N) as Ho. destruct network as (fmn & fmx & h_mn & h_mx & k_mn & k_mx).
    destruct (bsort_asc_ok s D fmn fmx sf_two _ _ _ _ h_mn h_mx h_p4 h_s4 K k_mn k_mx va _ Ho) as (vr & lr & E & (W' & L' & E' & HD) & P & S).
    exists vr. split; [exact E|]. split; auto. destruct Ho as (_ & L2 & _ & HD'). split; [lia|]. rewrite E'. split; auto.
  Qed.
  Theorem bitonic_sort_float_dec_spec va : wfv s va -> length (lanes 32 s va) = 8%nat -> numbers va ->
    exists vr, fsort_dec A va = Ok vr /\ wfv s vr /\ length vr = length va /\
      sorts_val_dec (fun x => f_val 32 (z x)) (lanes 32 s va) (lanes 32 s vr).
  Proof.
    intros W L N. pose proof (mk_okv va W L N) as Ho. destruct network as (fmn & fmx & h_mn & h_mx & k_mn & k_mx).
    destruct (bsort_dec_ok s D fmn fmx sf_two _ _ _ _ h_mn h_mx h_p4 h_s4 K k_mn k_mx va _ Ho) as (vr & lr & E & (W' & L' & E' & HD) & P & S).
    exists vr. split; [exact E|]. split; auto. destruct Ho as (_ & L2 & _ & HD'). split; [lia|]. rewrite E'. split; auto.
  Qed.
  Theorem bitonic_sort2_float_asc_spec va vb : wfv s va -> wfv s vb -> length (lanes 32 s va) = 8%nat -> length (lanes 32 s vb) = 8%nat ->
    numbers va -> numbers vb ->
    exists ra rb, fsort2_asc A va vb = Ok (ra, rb) /\ wfv s ra /\ wfv s rb /\ length ra = length va /\ length rb = length vb /\
      sorts_val_asc (fun x => f_val 32 (z x)) (lanes 32 s va ++ lanes 32 s vb) (lanes 32 s ra ++ lanes 32 s rb).
  Proof.
    intros W W' L L' N N'. pose proof (mk_okv va W L N) as Ho. pose proof (mk_okv vb W' L' N') as Ho'.
    destruct network as (fmn & fmx & h_mn & h_mx & k_mn & k_mx).
    destruct (bsort2_asc_ok s D fmn fmx sf_two _ _ _ _ h_mn h_mx h_p4 h_s4 K k_mn k_mx va vb _ _ Ho Ho')
      as (r0 & r1 & m0 & m1 & E & (W0 & L0 & E0 & D0) & (W1 & L1 & E1 & D1) & P & S).
    exists r0, r1. split; [exact E|]. destruct Ho as (_ & L2 & _ & HD). destruct Ho' as (_ & L2' & _ & HD').
    split; auto. split; auto. split; [lia|]. split; [lia|]. rewrite E0, E1. split; auto.
  Qed.
  Theorem bitonic_sort2_float_dec_spec va vb : wfv s va -> wfv s vb -> length (lanes 32 s va) = 8%nat -> length (lanes 32 s vb) = 8%nat ->
    numbers va -> numbers vb ->
    exists ra rb, fsort2_dec A va vb = Ok (ra, rb) /\ wfv s ra /\ wfv s rb /\ length ra = length va /\ length rb = length vb /\
      sorts_val_dec (fun x => f_val 32 (z x)) (lanes 32 s va ++ lanes 32 s vb) (lanes 32 s ra ++ lanes 32 s rb).
  Proof.
    intros W W' L L' N N'. pose proof (mk_okv va W L N) as Ho. pose proof (mk_okv vb W' L' N') as Ho'.
    destruct network as (fmn & fmx & h_mn & h_mx & k_mn & k_mx).
    destruct (bsort2_dec_ok s D fmn fmx sf_two _ _ _ _ h_mn h_mx h_p4 h_s4 K k_mn k_mx va vb _ _ Ho Ho')
      as (r0 & r1 & m0 & m1 & E & (W0 & L0 & E0 & D0) & (W1 & L1 & E1 & D1) & P & S).
    exists r0, r1. split; [exact E|]. destruct Ho as (_ & L2 & _ & HD). destruct Ho' as (_ & L2' & _ & HD').
    split; auto. split; auto. split; [lia|]. split; [lia|]. rewrite E0, E1. split; auto.
  Qed.
End B.
(** On x86 the two sorted vectors need not be a rearrangement of the bit patterns of the inputs:
    zeros of one sign are replaced by zeros of the other (MINPS and MAXPS of two zeros both return
    the second operand). *)
Theorem bitonic_sort2_float_bits_refuted : exists va vb r0 r1, wfv R128 va /\ wfv R128 vb /\
  length (lanes 32 R128 va) = 8%nat /\ length (lanes 32 R128 vb) = 8%nat /\
  Forall (fun x => f_nan 32 x = false) (lanes 32 R128 va ++ lanes 32 R128 vb) /\
  fsort2_asc arch_sse2 va vb = Ok (r0, r1) /\
  ~ Permutation (lanes 32 R128 va ++ lanes 32 R128 vb) (lanes 32 R128 r0 ++ lanes 32 R128 r1).
Proof.
  exists [0; 0], [0x80000000800000008000000080000000; 0x80000000800000008000000080000000].
  eexists. eexists. split.
  { apply wfv_cons; split; [split; vm_compute; [discriminate|reflexivity]|]. apply wfv_cons; split; [split; vm_compute; [discriminate|reflexivity]|constructor]. }
  split.
  { apply wfv_cons; split; [split; vm_compute; [discriminate|reflexivity]|]. apply wfv_cons; split; [split; vm_compute; [discriminate|reflexivity]|constructor]. }
  split; [reflexivity|]. split; [reflexivity|]. split.
  { match goal with |- Forall _ ?l => let l' := eval vm_compute in l in change l with l' end. repeat constructor. }
  split; [vm_compute; reflexivity|]. intros P.
  match type of P with Permutation ?l ?m => let l' := eval vm_compute in l in let m' := eval vm_compute in m in change (Permutation l' m') in P end.
  apply (Permutation_in 0) in P; [|left; reflexivity]. cbn in P. intuition discriminate.
Qed.
Example fminmax_case :
  min_f arch_avx false R128 [0x3f800000] [0xc0000000] = Ok [0xc0000000] /\
  max_f arch_null true R128 [0x3ff0000000000000] [0xc000000000000000] = Ok [0x3ff0000000000000] /\
  clamp_f arch_neon64 false R128 [0x40400000] [0x3f800000] [0x40000000] = Ok [0x40000000] /\
  clamp_i arch_sse2 true W8 R128 [0x80] [0xff] [0x01] = Ok [0xff] /\
  fsort_asc arch_sse2 [0x40400000400000003f80000080000000; 0x40c0000040a00000c080000000000000] =
    Ok [0x3f8000000000000000000000c0800000; 0x40c0000040a000004040000040000000].
Proof. split; [|split; [|split; [|split]]]; vm_compute; reflexivity. Qed.
