(** C24. *)
From Verif Require Import Model.Dispatch.
Open Scope Z_scope.

Definition word (x : Z) : Prop := 0 <= x < 2 ^ 32.
Lemma word_high x i : word x -> 32 <= i -> Z.testbit x i = false.
Proof.
  intros H Hi. unfold word in H. destruct (Z.eq_dec x 0) as [->|Hx]; [apply Z.testbit_0_l|].
  apply Z.bits_above_log2; [lia|]. assert (Z.log2 x < 32) by (apply Z.log2_lt_pow2; lia). lia.
Qed.
Lemma test_arch_subset_ok a r : word a -> word r -> test_arch_subset a r = true <-> subset r a.
Proof.
  intros Ha Hr. unfold test_arch_subset, subset. rewrite Z.eqb_eq. split.
  - intros H i Hi Hb. assert (Z.testbit (Z.land (Z.lxor a 0xffffffff) r) i = false) as H1
      by (rewrite H; apply Z.testbit_0_l).
    rewrite Z.land_spec, Z.lxor_spec, Hb, andb_true_r in H1.
    destruct (Z_lt_dec i 32) as [Hl|Hl].
    + change 0xffffffff with (Z.ones 32) in H1. rewrite Z.ones_spec_low in H1 by lia.
      destruct (Z.testbit a i); [auto|discriminate].
    + rewrite (word_high r i) in Hb by (auto; lia). discriminate.
  - intros H. apply Z.bits_inj'. intros i Hi. rewrite Z.testbit_0_l, Z.land_spec, Z.lxor_spec.
    destruct (Z.testbit r i) eqn:Hb; [|apply andb_false_r]. rewrite (H i Hi Hb), andb_true_r.
    destruct (Z_lt_dec i 32) as [Hl|Hl].
    + change 0xffffffff with (Z.ones 32). rewrite Z.ones_spec_low by lia. reflexivity.
    + rewrite (word_high r i) in Hb by (auto; lia). discriminate.
Qed.

Definition words {F} (vs : list (fnver F)) : Prop := Forall (fun v => word (needed v)) vs.

Lemma scan_ok {F} arch (vs : list (fnver F)) : word arch -> words vs ->
  StronglySorted (fun x y => needed y <= needed x) vs ->
  match scan arch vs with
  | Some v => best arch vs v
  | None => forall u, In u vs -> ~ runnable arch u
  end.
Proof.
  intros HA. induction vs as [|v vs IH]; intros HW HS; cbn [scan].
  - intros u [].
  - inversion HW as [|? ? Hv Hvs]; subst. inversion HS as [|? ? HS1 HS2]; subst.
    specialize (IH Hvs HS1). rewrite Forall_forall in HS2.
    assert (~ runnable arch v -> match scan arch vs with
      | Some w => best arch (v :: vs) w | None => forall u, In u (v :: vs) -> ~ runnable arch u end) as Hskip.
    { intros HN. destruct (scan arch vs) as [w|].
      - destruct IH as (H1 & H2 & H3). split; [right; exact H1|]. split; [exact H2|].
        intros u [<-|Hu] Hr; [contradiction|auto].
      - intros u [<-|Hu]; auto. }
    destruct (fptr v) as [f|] eqn:Hf.
    + destruct (test_arch_subset arch (needed v)) eqn:HT.
      * apply test_arch_subset_ok in HT; auto. split; [left; reflexivity|]. split.
        { split; [congruence|exact HT]. }
        intros u [<-|Hu] _; [lia|]. apply HS2; auto.
      * apply Hskip. intros [_ H]. apply test_arch_subset_ok in H; auto. congruence.
    + apply Hskip. intros [H _]. congruence.
Qed.

Lemma words_perm {F} (a b : list (fnver F)) : Permutation a b -> words a -> words b.
Proof. intros HP H. unfold words in *. rewrite Forall_forall in *. intros x Hx. apply H.
  apply Permutation_sym in HP. eapply Permutation_in; eauto. Qed.

(** The selected version is one of those supplied, has a function, needs only what the
    CPU reports, and no runnable version ranks higher. *)
Theorem select_best : forall F (versions : list (fnver F)) arch v,
  word arch -> words versions ->
  select_version_any versions arch (Some v) -> best arch versions v.
Proof.
  intros F versions arch v HA HW (vs & [HP HS] & HE).
  pose proof (scan_ok arch vs HA (words_perm _ _ HP HW) HS) as H. rewrite HE in H.
  destruct H as (H1 & H2 & H3). apply Permutation_sym in HP. split.
  - eapply Permutation_in; eauto.
  - split; [exact H2|]. intros u Hu. apply H3. apply Permutation_sym in HP. eapply Permutation_in; eauto.
Qed.
(** Abort happens exactly when nothing supplied can run. *)
Theorem select_abort : forall F (versions : list (fnver F)) arch,
  word arch -> words versions ->
  (select_version_any versions arch None -> forall v, In v versions -> ~ runnable arch v) /\
  ((forall v, In v versions -> ~ runnable arch v) ->
     forall out, select_version_any versions arch out -> out = None).
Proof.
  intros F versions arch HA HW. split.
  - intros (vs & [HP HS] & HE) v Hv.
    pose proof (scan_ok arch vs HA (words_perm _ _ HP HW) HS) as H. rewrite HE in H.
    apply H. eapply Permutation_in; eauto.
  - intros HN [v|] HS; [|reflexivity]. apply select_best in HS; auto. destruct HS as (H1 & H2 & _).
    destruct (HN v H1 H2).
Qed.

(** the sort always produces something, so there is always an outcome *)
Fixpoint ins {F} (v : fnver F) (vs : list (fnver F)) : list (fnver F) :=
  match vs with [] => [v] | u :: us => if needed u <=? needed v then v :: u :: us else u :: ins v us end.
Lemma ins_perm {F} v (vs : list (fnver F)) : Permutation (v :: vs) (ins v vs).
Proof.
  induction vs as [|u us IH]; cbn; [auto|]. destruct (needed u <=? needed v); auto.
  eapply perm_trans; [apply perm_swap|]. constructor. exact IH.
Qed.
Lemma ins_sorted {F} v (vs : list (fnver F)) :
  StronglySorted (fun x y => needed y <= needed x) vs ->
  StronglySorted (fun x y => needed y <= needed x) (ins v vs).
Proof.
  induction vs as [|u us IH]; cbn; intros H; [repeat constructor|].
  inversion H as [|? ? H1 H2]; subst. destruct (needed u <=? needed v) eqn:HE.
  - apply Z.leb_le in HE. constructor; auto. constructor; auto.
    rewrite Forall_forall in *. intros x Hx. specialize (H2 x Hx). lia.
  - apply Z.leb_gt in HE. constructor; auto. rewrite Forall_forall in *. intros x Hx.
    apply Permutation_in with (l' := v :: us) in Hx; [|apply Permutation_sym, ins_perm].
    destruct Hx as [<-|Hx]; [lia|auto].
Qed.
Theorem select_total : forall F (versions : list (fnver F)) arch,
  exists out, select_version_any versions arch out.
Proof.
  intros F versions arch.
  assert (exists vs, std_sort_desc versions vs) as (vs & H).
  { exists (fold_right ins [] versions). induction versions as [|v vs (H1 & H2)]; cbn.
    - split; constructor.
    - split; [|apply ins_sorted; auto]. eapply perm_trans; [apply perm_skip; exact H1|apply ins_perm]. }
  exists (scan arch vs), vs. auto.
Qed.

(** The order of registration does not matter: two orders of the same versions give an
    outcome with the same requirements, and the same version when no two supplied
    versions have the same requirements. *)
Theorem select_order : forall F (vs1 vs2 : list (fnver F)) arch o1 o2,
  word arch -> words vs1 -> Permutation vs1 vs2 ->
  select_version_any vs1 arch o1 -> select_version_any vs2 arch o2 ->
  option_map needed o1 = option_map needed o2 /\
  ((forall u v, In u vs1 -> In v vs1 -> fptr u <> None -> fptr v <> None -> needed u = needed v -> u = v) ->
    o1 = o2).
Proof.
  intros F vs1 vs2 arch o1 o2 HA HW HP H1 H2. pose proof (words_perm _ _ HP HW) as HW2.
  assert (forall u, In u vs1 <-> In u vs2) as HI.
  { intros u. split; apply Permutation_in; [auto|apply Permutation_sym; auto]. }
  destruct o1 as [u|], o2 as [v|]; cbn [option_map].
  - apply select_best in H1; auto. apply select_best in H2; auto.
    destruct H1 as (A1 & A2 & A3), H2 as (B1 & B2 & B3).
    assert (needed u = needed v) as HE.
    { pose proof (A3 v (proj2 (HI _) B1) B2). pose proof (B3 u (proj1 (HI _) A1) A2). lia. }
    split; [congruence|]. intros HU. f_equal. apply HU; auto; [apply HI; auto|apply A2|apply B2].
  - exfalso. apply select_best in H1; auto. destruct H1 as (A1 & A2 & _).
    apply (proj1 (select_abort _ _ _ HA HW2) H2 u); auto. apply HI; auto.
  - exfalso. apply select_best in H2; auto. destruct H2 as (A1 & A2 & _).
    apply (proj1 (select_abort _ _ _ HA HW) H1 v); auto. apply HI; auto.
  - auto.
Qed.

(** Ranking by numeric value respects inclusion: no runnable version needs a strict
    superset of what the chosen one needs. *)
Lemma subset_le a b : word a -> word b -> subset a b -> a <= b.
Proof.
  intros Ha Hb H. unfold word in *.
  assert (Z.ldiff a b = 0) as H0.
  { apply Z.bits_inj'. intros i Hi. rewrite Z.ldiff_spec, Z.testbit_0_l.
    destruct (Z.testbit a i) eqn:E; auto. rewrite (H i Hi E). reflexivity. }
  apply Z.ldiff_le; lia.
Qed.
Theorem select_no_superset : forall F (versions : list (fnver F)) arch v u,
  word arch -> words versions -> select_version_any versions arch (Some v) ->
  In u versions -> runnable arch u -> subset (needed v) (needed u) -> needed u = needed v.
Proof.
  intros F versions arch v u HA HW HS Hu Hr HI. apply select_best in HS; auto.
  destruct HS as (H1 & H2 & H3). specialize (H3 u Hu Hr). unfold words in HW. rewrite Forall_forall in HW.
  pose proof (subset_le _ _ (HW v H1) (HW u Hu) HI). lia.
Qed.

(** Concurrent first calls: whatever the interleaving, every function that is ever
    invoked through the dispatcher is the function of a best runnable version, no call goes
    through a null pointer, and the program aborts only when nothing can run. *)
Lemma collect_in {F} (slots : list (option (fnver F))) v :
  In v (collect slots) -> fptr v <> None -> In (Some v) slots.
Proof.
  unfold collect. rewrite in_map_iff. intros (o & <- & Ho) Hf. destruct o as [w|]; [exact Ho|].
  cbn in Hf. congruence.
Qed.
Lemma in_collect {F} (slots : list (option (fnver F))) v : In (Some v) slots -> In v (collect slots).
Proof. intros H. unfold collect. apply in_map_iff. exists (Some v). auto. Qed.

Definition supplied {F} (slots : list (option (fnver F))) (v : fnver F) : Prop := In (Some v) slots.
Definition best_supplied {F} (slots : list (option (fnver F))) (arch : Z) (v : fnver F) : Prop :=
  supplied slots v /\ runnable arch v /\
  forall u, supplied slots u -> runnable arch u -> needed u <= needed v.
Definition good {F} slots arch (f : F) : Prop := exists v, best_supplied slots arch v /\ fptr v = Some f.

Lemma best_collect {F} (slots : list (option (fnver F))) arch v :
  best arch (collect slots) v -> best_supplied slots arch v.
Proof.
  intros (H1 & H2 & H3). split; [|split]; auto.
  - apply collect_in; auto. apply H2.
  - intros u Hu. apply H3. apply in_collect; auto.
Qed.

Definition pc_ok {F} (slots : list (option (fnver F))) arch (s : option F) (x : pc F) : Prop :=
  match x with
  | Write f => exists g, f = Some g /\ good slots arch g
  | Call => s <> None
  | Aborted => forall v, supplied slots v -> ~ runnable arch v
  | NullCall => False
  | _ => True
  end.
Definition Inv {F} slots arch (st : state F) : Prop :=
  (forall f, selected st = Some f -> good slots arch f) /\
  (forall t, pc_ok slots arch (selected st) (pool st t)) /\
  (forall f, In f (calls st) -> good slots arch f).
Definition slot_words {F} (slots : list (option (fnver F))) : Prop :=
  forall v, supplied slots v -> word (needed v).
Lemma collect_words {F} (slots : list (option (fnver F))) : slot_words slots -> words (collect slots).
Proof.
  intros H. unfold words, collect. rewrite Forall_forall. intros v. rewrite in_map_iff.
  intros (o & <- & Ho). destruct o as [w|]; [apply H; exact Ho|]. unfold word. cbn. lia.
Qed.
Lemma inv_step {F} slots arch (s s' : state F) : word arch -> slot_words slots ->
  step slots arch s s' -> Inv slots arch s -> Inv slots arch s'.
Proof.
  intros HA HW HS (I1 & I2 & I3). pose proof (collect_words _ HW) as HC.
  assert (forall p t x (sel sel' : option F),
    (forall u, pc_ok slots arch sel (p u)) -> pc_ok slots arch sel' x -> (sel <> None -> sel' <> None) ->
    forall u, pc_ok slots arch sel' (set_pc p t x u)) as HP.
  { intros p t x sel sel' H1 H2 H3 u. unfold set_pc. destruct (Nat.eqb u t); auto.
    specialize (H1 u). destruct (p u); cbn in *; auto. }
  destruct HS as [s p c t H|p c t H|f p c t H|s p c t v H HV|s p c t H HV|s p c t f H|f p c t H|p c t H];
    cbn [selected pool calls] in *.
  - repeat split; auto. cbn. apply HP with (sel := s); cbn; auto.
  - repeat split; auto. cbn. apply HP with (sel := None); cbn; auto.
  - repeat split; auto. cbn. apply HP with (sel := Some f); cbn; auto. discriminate.
  - repeat split; auto. cbn. apply HP with (sel := s); auto. cbn.
    apply select_best in HV; auto. apply best_collect in HV.
    destruct HV as (V1 & V2 & V3). destruct (fptr v) as [g|] eqn:Hg.
    + exists g. split; auto. exists v. split; [split|]; auto.
    + destruct V2 as [V2 _]. congruence.
  - repeat split; auto. cbn. apply HP with (sel := s); auto. cbn.
    intros v Hv. apply (proj1 (select_abort _ _ _ HA HC) HV). apply in_collect; auto.
  - pose proof (I2 t) as Ht. rewrite H in Ht. destruct Ht as (g & -> & Hg).
    repeat split; auto; cbn.
    + intros f Hf. injection Hf as <-. exact Hg.
    + apply HP with (sel := s); cbn; auto; discriminate.
  - repeat split; auto; cbn.
    + apply HP with (sel := Some f); cbn; auto.
    + intros g [<-|Hg]; auto.
  - exfalso. pose proof (I2 t) as Ht. rewrite H in Ht. cbn in Ht. congruence.
Qed.
Lemma inv_reach {F} slots arch (s : state F) : word arch -> slot_words slots ->
  reachable slots arch s -> Inv slots arch s.
Proof.
  intros HA HW H. induction H as [|s s' _ IH HS]; [|eapply inv_step; eauto].
  split; [|split]; cbn; auto; try discriminate. intros f [].
Qed.
Theorem dispatch_concurrent : forall F (slots : list (option (fnver F))) arch st,
  word arch -> slot_words slots -> reachable slots arch st ->
  (forall f, In f (calls st) ->
     exists v, supplied slots v /\ fptr v = Some f /\ subset (needed v) arch /\
       forall u, supplied slots u -> runnable arch u -> needed u <= needed v) /\
  (forall t, pool st t <> NullCall) /\
  (forall t, pool st t = Aborted -> forall v, supplied slots v -> ~ runnable arch v).
Proof.
  intros F slots arch st HA HW H. apply inv_reach in H; auto. destruct H as (I1 & I2 & I3).
  split; [|split].
  - intros f Hf. destruct (I3 f Hf) as (v & (V1 & V2 & V3) & HE). exists v. repeat split; auto. apply V2.
  - intros t Ht. specialize (I2 t). rewrite Ht in I2. exact I2.
  - intros t Ht. specialize (I2 t). rewrite Ht in I2. exact I2.
Qed.
(** When all runnable versions have different requirements every call ever made goes to
    the same function. *)
Theorem dispatch_deterministic : forall F (slots : list (option (fnver F))) arch st f g,
  word arch -> slot_words slots -> reachable slots arch st ->
  (forall u v, supplied slots u -> supplied slots v -> runnable arch u -> runnable arch v ->
     needed u = needed v -> u = v) ->
  In f (calls st) -> In g (calls st) -> f = g.
Proof.
  intros F slots arch st f g HA HW HR HU Hf Hg.
  destruct (dispatch_concurrent F slots arch st HA HW HR) as (HC & _).
  destruct (HC f Hf) as (u & U1 & U2 & U3 & U4), (HC g Hg) as (v & V1 & V2 & V3 & V4).
  assert (runnable arch u) by (split; [congruence|auto]).
  assert (runnable arch v) by (split; [congruence|auto]).
  assert (u = v) by (apply HU; auto; apply Z.le_antisymm; auto). congruence.
Qed.

(** Non-vacuity: SSE2-capable CPU, versions null, SSE2, AVX (bits 1..6) and an empty slot;
    two threads race through their first call. *)
Definition ex_slots : list (option (fnver nat)) :=
  [Some (mkFn 0 (Some 10%nat)); Some (mkFn 0x5e (Some 12%nat)); None; Some (mkFn 2 (Some 11%nat))].
Example select_case : select_version_any (collect ex_slots) 6 (Some (mkFn 2 (Some 11%nat))).
Proof.
  exists [mkFn 0x5e (Some 12%nat); mkFn 2 (Some 11%nat); mkFn 0 (Some 10%nat); mkFn 0 None].
  split; [|reflexivity]. split.
  - cbn. eapply perm_trans; [apply perm_swap|]. apply perm_skip.
    eapply perm_trans; [apply perm_skip, perm_swap|]. apply perm_swap.
  - repeat (constructor; [|repeat (constructor; [cbn; lia|]); constructor]). constructor.
Qed.
Example dispatch_case : exists st, reachable ex_slots 6 st /\ calls st = [11%nat; 11%nat].
Proof.
  set (s := mkFn 2 (Some 11%nat)).
  eexists. split.
  - eapply r_step. eapply r_step. eapply r_step. eapply r_step. eapply r_step. eapply r_step.
    eapply r_step. eapply r_step. eapply r_step. eapply r_step. apply r_init.
    + apply st_enter with (t := 0%nat). reflexivity.
    + apply st_enter with (t := 1%nat). reflexivity.
    + apply st_null with (t := 0%nat). reflexivity.
    + apply st_null with (t := 1%nat). reflexivity.
    + apply st_select with (t := 0%nat) (v := s); [reflexivity|exact select_case].
    + apply st_write with (t := 0%nat) (f := Some 11%nat). reflexivity.
    + apply st_call with (t := 0%nat). reflexivity.
    + apply st_select with (t := 1%nat) (v := s); [reflexivity|exact select_case].
    + apply st_write with (t := 1%nat) (f := Some 11%nat). reflexivity.
    + apply st_call with (t := 1%nat). reflexivity.
  - reflexivity.
Qed.
