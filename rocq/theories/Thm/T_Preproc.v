(** C26, C27: instruction-set selection and architecture namespaces. *)
From Verif Require Import Model.Preproc Base.Arch.
Open Scope Z_scope.

(** ------------------------------------------------------------------ *)
(** C27. *)
Section Closure.
  Variable inp : flags.
  Let sound (E : flags) := forall h, E h = true -> exists f, inp f = true /\ implies f h.
  Lemma isa_eqb_eq f g : isa_eqb f g = true -> f = g.
  Proof. unfold isa_eqb. destruct (isa_eq_dec f g); [auto|discriminate]. Qed.
  Lemma when_sound f g E : needs f g -> sound E -> sound (when f g E).
  Proof.
    intros HN HS h. unfold when. rewrite orb_true_iff, andb_true_iff. intros [H|[H1 H2]]; auto.
    apply isa_eqb_eq in H1. subst h. destruct (HS f H2) as (k & Hk & HI).
    exists k. split; auto. eapply rt_trans; [exact HI|]. apply rt_step; auto.
  Qed.
  Lemma closure_sound : sound (closure inp).
  Proof.
    unfold closure. repeat (apply when_sound; [constructor|]).
    intros h H. exists h. split; auto. apply rt_refl.
  Qed.
End Closure.
Lemma when_mono f g E h : E h = true -> when f g E h = true.
Proof. intros H. unfold when. rewrite H. reflexivity. Qed.
Lemma when_hit f g E : E f = true -> when f g E g = true.
Proof.
  intros H. unfold when. rewrite H. unfold isa_eqb.
  destruct (isa_eq_dec g g); [|congruence]. apply orb_true_r.
Qed.
(** the instruction sets above f in the implication order *)
Definition above (f : isa) : list isa :=
  match f with
  | SSE2 => [SSE2; SSE3; SSSE3; SSE4_1; POPCNT; AVX; AVX2; FMA3; FMA4; XOP; AVX512F; AVX512BW; AVX512DQ; AVX512VL]
  | SSE3 => [SSE3; SSSE3; SSE4_1; POPCNT; AVX; AVX2; FMA3; FMA4; XOP; AVX512F; AVX512BW; AVX512DQ; AVX512VL]
  | SSSE3 => [SSSE3; SSE4_1; POPCNT; AVX; AVX2; AVX512F; AVX512BW; AVX512DQ; AVX512VL]
  | SSE4_1 => [SSE4_1; AVX; AVX2; AVX512F; AVX512BW; AVX512DQ; AVX512VL]
  | AVX => [AVX; AVX2; AVX512F; AVX512BW; AVX512DQ; AVX512VL]
  | AVX2 => [AVX2; AVX512F; AVX512BW; AVX512DQ; AVX512VL]
  | AVX512F => [AVX512F; AVX512BW; AVX512DQ; AVX512VL]
  | NEON => [NEON; NEON_FLT_SP]
  | ALTIVEC => [ALTIVEC; VSX_206; VSX_207]
  | VSX_206 => [VSX_206; VSX_207]
  | f => [f]
  end.
Lemma implies_above f g : implies f g -> In f (above g).
Proof.
  intros H. apply clos_rt_rtn1 in H. induction H as [|g h HN _ IH].
  - destruct f; cbn; tauto.
  - destruct HN; cbn in *; intuition (subst; try discriminate; auto 20).
Qed.
Lemma closure_above inp f g : In f (above g) -> inp f = true -> closure inp g = true.
Proof.
  Ltac go H := first [ exact H | apply when_hit; go H | apply when_mono; go H ].
  intros HI H. unfold closure.
  destruct g; cbn [above In] in HI;
    repeat match type of HI with _ \/ _ => destruct HI as [HI|HI]; [subst f; go H|] end; destruct HI.
Qed.

(** An instruction set is enabled exactly when it is requested or presupposed by a
    requested one. *)
Theorem closure_spec : forall inp g,
  closure inp g = true <-> exists f, inp f = true /\ implies f g.
Proof.
  intros inp g. split; [apply closure_sound|].
  intros (f & Hf & HI). apply (closure_above inp f); auto. apply implies_above; auto.
Qed.
Lemma closure_closed inp f g : needs f g -> closure inp f = true -> closure inp g = true.
Proof.
  intros HN H. apply closure_spec in H. destruct H as (k & Hk & HI). apply closure_spec.
  exists k. split; auto. eapply rt_trans; [exact HI|apply rt_step; auto].
Qed.

(** the scalar backend is chosen exactly when nothing was requested *)
Theorem null_spec : forall inp, pp_null (closure inp) = true <-> forall f, inp f = false.
Proof.
  intros inp. unfold pp_null. rewrite negb_true_iff. split.
  - intros H f. destruct (inp f) eqn:E; auto. exfalso.
    rewrite !orb_false_iff in H. destruct H as [[[[H1 H2] H3] H4] H5].
    set (base := match fam_of f with X86 => SSE2 | ARM => NEON | POWER => ALTIVEC | MIPS => MSA end).
    assert (closure inp base = true) as HC.
    { apply (closure_above inp f); auto. unfold base. destruct f; cbn; tauto. }
    unfold base in HC. destruct (fam_of f); rewrite HC in *; discriminate.
  - intros H. assert (forall g, closure inp g = false) as HF.
    { intros g. destruct (closure inp g) eqn:E; auto. apply closure_sound in E.
      destruct E as (f & Hf & _). rewrite H in Hf. discriminate. }
    rewrite !HF. reflexivity.
Qed.

(** Lists of up to 14 names: exactly the named sets are requested. *)
Lemma testbit_fold l k : Z.testbit (fold_right Z.lor 0 l) k = existsb (fun x => Z.testbit x k) l.
Proof. induction l; cbn; [apply Z.testbit_0_l|]. rewrite Z.lor_spec, IHl. reflexivity. Qed.
Definition mask_bit (f : isa) : Z := Z.log2 (insn_mask f).
Lemma mask_bit_inj f g : Z.testbit (insn_mask f) (mask_bit g) = isa_eqb f g.
Proof. destruct f, g; vm_compute; reflexivity. Qed.
Lemma land_mask m f : (Z.land m (insn_mask f) =? insn_mask f) = Z.testbit m (mask_bit f).
Proof.
  assert (insn_mask f = 2 ^ mask_bit f) as E by (destruct f; vm_compute; reflexivity).
  assert (0 <= mask_bit f) as Hb by (destruct f; vm_compute; discriminate).
  rewrite E at 1 2. destruct (Z.testbit m (mask_bit f)) eqn:HB.
  - apply Z.eqb_eq. apply Z.bits_inj'. intros n Hn. rewrite Z.land_spec, Z.pow2_bits_eqb by auto.
    destruct (Z.eqb_spec (mask_bit f) n); [subst; rewrite HB; reflexivity|apply andb_false_r].
  - apply Z.eqb_neq. intros HX. apply (f_equal (fun x => Z.testbit x (mask_bit f))) in HX.
    rewrite Z.land_spec, HB, Z.pow2_bits_eqb, Z.eqb_refl in HX by auto. discriminate.
Qed.
Theorem from_list_spec : forall l f, (List.length l <= 14)%nat ->
  from_list l f = true <-> In (Some f) l.
Proof.
  intros l f Hl. unfold from_list. rewrite land_mask. unfold create_mask.
  rewrite testbit_fold, existsb_exists. split.
  - intros (x & Hx & Hb). apply in_map_iff in Hx. destruct Hx as ([g|] & <- & Hi).
    + cbn in Hb. rewrite mask_bit_inj in Hb. apply isa_eqb_eq in Hb. subst g.
      assert (In (Some f) (l ++ repeat None 14)) as HI.
      { rewrite <- (firstn_skipn 14). apply in_or_app. auto. }
      apply in_app_or in HI. destruct HI as [HI|HI]; auto. apply repeat_spec in HI. discriminate.
    + cbn in Hb. rewrite Z.testbit_0_l in Hb. discriminate.
  - intros Hi. exists (insn_mask f). split.
    + apply in_map_iff. exists (Some f). split; auto.
      rewrite firstn_app. apply in_or_app. left. rewrite firstn_all2 by lia. auto.
    + rewrite mask_bit_inj. unfold isa_eqb. destruct (isa_eq_dec f f); congruence.
Qed.
(** with fifteen entries the last one is lost *)
Theorem from_list_long_refuted :
  from_list (repeat (Some SSE2) 14 ++ [Some AVX]) AVX = false.
Proof. reflexivity. Qed.

(** this_compile_arch has a bit for every enabled instruction set, and within one CPU
    family for nothing else. *)
Definition one_family (E : flags) (F : family) : Prop := forall f, E f = true -> fam_of f = F.
Lemma compile_arch_bits E k : 0 <= k ->
  Z.testbit (this_compile_arch E) k = existsb (fun f => E f && (arch_bit f =? k)) all_isa.
Proof.
  intros Hk. unfold this_compile_arch.
  assert (forall l r, Z.testbit (fold_left (fun res f => if E f then Z.lor res (Arch f) else res) l r) k =
            Z.testbit r k || existsb (fun f => E f && (arch_bit f =? k)) l) as G.
  { induction l as [|f l IH]; intros r; cbn [fold_left existsb]; [rewrite orb_false_r; reflexivity|].
    rewrite IH. destruct (E f); cbn [andb orb].
    - rewrite Z.lor_spec. unfold Arch. rewrite Z.pow2_bits_eqb by (destruct f; discriminate).
      rewrite orb_assoc. reflexivity.
    - reflexivity. }
  rewrite G, Z.testbit_0_l. reflexivity.
Qed.
Theorem compile_arch_covers : forall E f, E f = true ->
  Z.testbit (this_compile_arch E) (arch_bit f) = true.
Proof.
  intros E f H. rewrite compile_arch_bits by (destruct f; discriminate).
  apply existsb_exists. exists f. split; [apply all_isa_in|]. rewrite H, Z.eqb_refl. reflexivity.
Qed.
Theorem compile_arch_exact : forall E F f, one_family E F -> fam_of f = F ->
  Z.testbit (this_compile_arch E) (arch_bit f) = E f.
Proof.
  intros E F f HF Hf. destruct (E f) eqn:H; [apply compile_arch_covers; auto|].
  rewrite compile_arch_bits by (destruct f; discriminate).
  apply not_true_is_false. intros HX. apply existsb_exists in HX. destruct HX as (g & _ & Hg).
  rewrite andb_true_iff, Z.eqb_eq in Hg. destruct Hg as [Hg Hb].
  pose proof (HF g Hg) as Hfg. subst F. rewrite <- Hfg in *. clear HF.
  destruct f, g; cbn in *; try discriminate; congruence.
Qed.

(** C27, last clause, fails on 64-bit ARM: the library uses NEON_FLT_SP there
    (setup_arch.h:344-347) without the required-architecture word saying so. *)
Definition only (f : isa) : flags := isa_eqb f.
Theorem compile_arch_neon64_refuted :
  let E := closure (only NEON) in
  setup true E NEON_FLT_SP = true /\ Z.testbit (this_compile_arch E) (arch_bit NEON_FLT_SP) = false.
Proof. split; reflexivity. Qed.
(** everywhere else the code that is compiled uses only what the word declares *)
Theorem compile_arch_required_partial : forall bits64 E f,
  (bits64 = false \/ E NEON = false \/ f <> NEON_FLT_SP \/ E NEON_FLT_SP = true) ->
  setup bits64 E f = true -> Z.testbit (this_compile_arch E) (arch_bit f) = true.
Proof.
  intros b E f H. unfold setup. destruct (E NEON && b) eqn:HB.
  - rewrite andb_true_iff in HB. destruct HB as [H1 H2]. unfold define.
    rewrite orb_true_iff. intros [HD|HD]; [|apply compile_arch_covers; auto].
    apply isa_eqb_eq in HD. subst f.
    destruct H as [H|[H|[H|H]]]; try congruence. apply compile_arch_covers; auto.
  - apply compile_arch_covers.
Qed.

Example closure_case : closure (only AVX2) SSE2 = true /\ closure (only AVX2) AVX512F = false /\
  preprocess (fun f => only FMA3 f || only FMA4 f) = None.
Proof. repeat split. Qed.
Example from_list_case : from_list [Some AVX; None; Some POPCNT] POPCNT = true /\
  from_list [Some AVX; None; Some POPCNT] SSE2 = false.
Proof. split; reflexivity. Qed.

(** The configurations quantified over by the other theorems ([valid_arch]) are exactly
    those this preprocessor can produce for one CPU family (XOP with AVX-512 and
    64-bit MSA excluded). *)
Definition arch_of (bits64 wa1 wa2 gnuc : bool) (E0 : flags) : arch :=
  let E := setup bits64 E0 in
  mkArch (pp_null E0) (E SSE2) (E SSE3) (E SSSE3) (E SSE4_1) (E POPCNT) (E AVX) (E AVX2) (E FMA3)
    (E FMA4) (E XOP) (E AVX512F) (E AVX512BW) (E AVX512DQ) (E AVX512VL) (E NEON) (E NEON_FLT_SP)
    (E ALTIVEC) (E VSX_206) (E VSX_207) (E MSA) bits64 wa1 wa2 gnuc.
Lemma implb_i (a b : bool) : (a = true -> b = true) -> implb a b = true.
Proof. destruct a, b; cbn; auto. Qed.
Lemma negb_and_i (a b : bool) : (a = true -> b = true -> False) -> negb (a && b) = true.
Proof. destruct a, b; cbn; auto. Qed.
Theorem closure_valid : forall bits64 wa1 wa2 gnuc inp E F,
  preprocess inp = Some E -> one_family E F -> (E XOP && E AVX512F = false) ->
  (E MSA && bits64 = false) -> valid_arch (arch_of bits64 wa1 wa2 gnuc E) = true.
Proof.
  intros b wa1 wa2 g inp E F HP HF HX HM.
  unfold preprocess in HP. destruct (pp_error (closure inp)) eqn:HE; [discriminate|]. injection HP as HP.
  assert (forall x y, needs x y -> E x = true -> E y = true) as C by (subst; apply closure_closed).
  assert (pp_error E = false) as HE' by (subst; auto). clear HP HE.
  assert (setup b E NEON = E NEON) as SN.
  { unfold setup. destruct (E NEON && b); reflexivity. }
  assert (forall f, f <> NEON_FLT_SP -> setup b E f = E f) as S.
  { intros f Hf. unfold setup. destruct (E NEON && b); auto. unfold define, isa_eqb.
    destruct (isa_eq_dec NEON_FLT_SP f); [congruence|]. reflexivity. }
  assert (setup b E NEON_FLT_SP = true -> E NEON = true) as S2.
  { unfold setup. destruct (E NEON && b) eqn:HB.
    - rewrite andb_true_iff in HB. tauto.
    - apply C. constructor. }
  assert (forall f f', E f = true -> E f' = true -> fam_of f = fam_of f') as HFF.
  { intros f f' H1 H2. rewrite (HF _ H1), (HF _ H2). reflexivity. }
  unfold valid_arch, arch_of. cbn [use_null use_sse2 use_sse3 use_ssse3 use_sse41 use_popcnt use_avx
    use_avx2 use_fma3 use_fma4 use_xop use_avx512f use_avx512bw use_avx512dq use_avx512vl use_neon
    use_neon_flt_sp use_altivec use_vsx206 use_vsx207 use_msa use_64 wa_xop_com wa_avx2_shift cc_gnuc].
  repeat match goal with
  | |- context[setup b E ?f] => lazymatch f with NEON_FLT_SP => fail | _ => rewrite (S f) by discriminate end
  end.
  rewrite !andb_true_iff. repeat split;
    first
    [ apply implb_i; apply C; constructor
    | apply implb_i; exact S2
    | apply implb_i; let H := fresh in intros H; unfold setup; rewrite H; reflexivity
    | apply negb_and_i; let H1 := fresh in let H2 := fresh in
      intros H1 H2; discriminate (HFF _ _ H1 H2)
    | rewrite HX; reflexivity
    | rewrite HM; reflexivity
    | unfold pp_error in HE'; rewrite HE'; reflexivity
    | idtac ].
  unfold pp_null. assert (E NEON_FLT_SP = true -> E NEON = true) as H by (apply C; constructor).
  destruct (E SSE2), (E NEON), (E NEON_FLT_SP), (E ALTIVEC), (E MSA); try reflexivity; discriminate (H eq_refl).
Qed.
Example closure_valid_case :
  valid_arch (arch_of true false false true (closure (fun f => only AVX512BW f || only FMA3 f))) = true.
Proof. reflexivity. Qed.

(** ------------------------------------------------------------------ *)
(** C26. *)
Section Strings.
  Open Scope string_scope.
  Definition ustart (s : string) : Prop := s = "" \/ exists t, s = String "_" t.
  (** can s and t be continued to the same string by continuations that are empty or
      start with an underscore? *)
  Fixpoint compat (s t : string) : bool :=
    match s, t with
    | EmptyString, EmptyString => true
    | EmptyString, String c _ => Ascii.eqb c "_"
    | String c _, EmptyString => Ascii.eqb c "_"
    | String c s, String d t => Ascii.eqb c d && compat s t
    end.
  Lemma compat_ok s : forall t X Y, ustart X -> ustart Y -> s ++ X = t ++ Y -> compat s t = true.
  Proof.
    induction s as [|c s IH]; intros [|d t] X Y HX HY HE; cbn in *; auto.
    - destruct HX as [->|[x ->]]; inversion HE; subst. reflexivity.
    - destruct HY as [->|[y ->]]; inversion HE; subst. reflexivity.
    - injection HE as -> HE. rewrite Ascii.eqb_refl. cbn. exact (IH _ _ _ HX HY HE).
  Qed.
  Lemma append_inj s : forall X Y, s ++ X = s ++ Y -> X = Y.
  Proof. induction s; cbn; intros X Y H; auto. inversion H. auto. Qed.

  Variable T : Type.
  Variable id : T -> string.
  Definition opt (b : T -> bool) (l : list T) : string :=
    paste (map (fun f => if b f then id f else "") l).
  Definition starts_us (f : T) : bool := match id f with String c _ => Ascii.eqb c "_" | _ => false end.
  Fixpoint pairwise (l : list T) : bool :=
    match l with
    | [] => true
    | f :: l => starts_us f && forallb (fun g => negb (compat (id f) (id g))) l && pairwise l
    end.
  Lemma pairwise_us l : pairwise l = true -> forallb starts_us l = true.
  Proof.
    induction l; cbn; auto. rewrite !andb_true_iff. intros [[H1 H2] H3]. auto.
  Qed.
  Lemma starts_us_id f X : starts_us f = true -> ustart (id f ++ X).
  Proof.
    unfold starts_us. destruct (id f) as [|c s]; [discriminate|].
    intros H. apply Ascii.eqb_eq in H. subst c. right. exists (s ++ X). reflexivity.
  Qed.
  Lemma opt_cons b f l : opt b (f :: l) = (if b f then id f else "") ++ opt b l.
  Proof. reflexivity. Qed.
  Lemma opt_first b l : forallb starts_us l = true ->
    opt b l = "" \/ exists g X, In g l /\ ustart X /\ opt b l = id g ++ X.
  Proof.
    induction l as [|f l IH]; [left; reflexivity|]. cbn [forallb]. rewrite andb_true_iff. intros [H1 H2].
    specialize (IH H2). rewrite opt_cons. destruct (b f) eqn:E.
    - right. exists f, (opt b l). split; [left; auto|]. split; [|reflexivity].
      destruct IH as [->|(g & X & Hg & HX & ->)]; [left; auto|].
      apply starts_us_id. rewrite forallb_forall in H2. auto.
    - cbn [append]. destruct IH as [->|(g & X & Hg & HX & ->)]; [left; auto|].
      right. exists g, X. cbn [In]. auto.
  Qed.
  Lemma opt_ustart b l : forallb starts_us l = true -> ustart (opt b l).
  Proof.
    intros H. destruct (opt_first b l H) as [->|(g & X & Hg & HX & ->)]; [left; auto|].
    apply starts_us_id. rewrite forallb_forall in H. auto.
  Qed.
  Lemma opt_clash f b l X : starts_us f = true -> forallb starts_us l = true ->
    forallb (fun g => negb (compat (id f) (id g))) l = true -> ustart X -> id f ++ X <> opt b l.
  Proof.
    intros Hf Hl HP HX HE. destruct (opt_first b l Hl) as [E|(g & Y & Hg & HY & E)].
    - rewrite E in HE. unfold starts_us in Hf. destruct (id f); [discriminate|]. cbn in HE. discriminate.
    - rewrite E in HE. rewrite forallb_forall in HP. specialize (HP g Hg).
      rewrite (compat_ok _ _ _ _ HX HY HE) in HP. discriminate.
  Qed.
  Lemma opt_inj b b' l : pairwise l = true -> opt b l = opt b' l -> forall f, In f l -> b f = b' f.
  Proof.
    induction l as [|f l IH]; [intros ? ? ? []|]. cbn [pairwise]. rewrite !andb_true_iff. intros [[H1 H2] H3] HE.
    pose proof (pairwise_us _ H3) as HU.
    pose proof (opt_ustart b l HU) as U1. pose proof (opt_ustart b' l HU) as U2.
    rewrite !opt_cons in HE.
    assert (b f = b' f /\ opt b l = opt b' l) as [E1 E2].
    { destruct (b f) eqn:E, (b' f) eqn:E'; cbn in HE.
      - apply append_inj in HE. auto.
      - exfalso. apply (opt_clash f b' l (opt b l)) in HE; auto.
      - exfalso. symmetry in HE. apply (opt_clash f b l (opt b' l)) in HE; auto.
      - auto. }
    intros g [<-|Hg]; auto.
  Qed.
End Strings.

Lemma ns_determines E f : (forall a b, needs a b -> E a = true -> E b = true) ->
  E f = existsb (ns_use E) (above f).
Proof.
  intros H.
  pose proof (H _ _ n_sse3); pose proof (H _ _ n_ssse3); pose proof (H _ _ n_sse41);
  pose proof (H _ _ n_popcnt); pose proof (H _ _ n_avx); pose proof (H _ _ n_avx2);
  pose proof (H _ _ n_fma3); pose proof (H _ _ n_fma4); pose proof (H _ _ n_xop);
  pose proof (H _ _ n_512f); pose proof (H _ _ n_512bw); pose proof (H _ _ n_512dq);
  pose proof (H _ _ n_512vl); pose proof (H _ _ n_fltsp); pose proof (H _ _ n_206);
  pose proof (H _ _ n_207). clear H.
  Ltac killer := repeat match goal with
    | H : true = true -> _ |- _ => specialize (H eq_refl)
    | H : false = true -> _ |- _ => clear H
    | H : _ -> true = true |- _ => clear H
    | H : true = true |- _ => clear H
    end; try discriminate.
  Ltac dst E x := destruct (E x); killer.
  destruct f; cbn [above existsb ns_use]; try (rewrite orb_false_r; reflexivity);
  [ dst E SSE2; dst E SSE3; dst E SSSE3; dst E SSE4_1; dst E AVX; dst E AVX2; dst E AVX512F;
    dst E XOP; dst E FMA3; dst E FMA4; dst E POPCNT; dst E AVX512BW; dst E AVX512DQ; dst E AVX512VL; try reflexivity ..|].
  all: try (dst E NEON; dst E NEON_FLT_SP; try reflexivity).
  all: try (dst E ALTIVEC; dst E VSX_206; dst E VSX_207; try reflexivity).
Qed.

(** Two configurations with the same namespace enable the same instruction sets. *)
Definition tok (x : option isa) : string := match x with None => "_null"%string | Some f => insn_id f end.
Lemma namespace_opt E : arch_namespace E =
  append "arch" (opt (option isa) tok (fun x => match x with None => pp_null E | Some f => ns_use E f end)
    (None :: map Some ns_order)).
Proof. unfold arch_namespace, opt. cbn [map paste fold_right]. rewrite map_map. reflexivity. Qed.
Lemma tok_pairwise : pairwise (option isa) tok (None :: map Some ns_order) = true.
Proof. vm_compute. reflexivity. Qed.
Theorem namespace_injective : forall inp1 inp2 E1 E2,
  preprocess inp1 = Some E1 -> preprocess inp2 = Some E2 ->
  arch_namespace E1 = arch_namespace E2 -> forall f, E1 f = E2 f.
Proof.
  unfold preprocess. intros inp1 inp2 E1 E2 H1 H2 HN f.
  destruct (pp_error (closure inp1)); [discriminate|]. injection H1 as H1.
  destruct (pp_error (closure inp2)); [discriminate|]. injection H2 as H2.
  assert (forall g, ns_use E1 g = ns_use E2 g) as HU.
  { intros g. rewrite !namespace_opt in HN. apply append_inj in HN.
    pose proof (opt_inj _ tok _ _ _ tok_pairwise HN (Some g)) as HI. apply HI.
    right. apply in_map. destruct g; cbn; tauto. }
  assert (forall a b, needs a b -> E1 a = true -> E1 b = true) as C1 by (subst; apply closure_closed).
  assert (forall a b, needs a b -> E2 a = true -> E2 b = true) as C2 by (subst; apply closure_closed).
  rewrite (ns_determines E1 f C1), (ns_determines E2 f C2). clear - HU.
  induction (above f); cbn; auto. rewrite HU, IHl. reflexivity.
Qed.
Example namespace_case :
  arch_namespace (closure (fun f => only FMA3 f || only AVX2 f)) = "arch_avx2_fma3"%string /\
  arch_namespace (closure (only FMA3)) = "arch_fma3"%string /\
  arch_namespace (closure (fun _ => false)) = "arch_null"%string.
Proof. repeat split. Qed.
