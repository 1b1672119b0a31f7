(** Lane-wise register operations: the vocabulary in which intrinsics are given
    and the lemmas that compose them.  Nothing here models library code. *)
From Verif Require Export Base.Bits Base.Arch.

(** R-bit register whose i-th w-bit lane is [f i]. *)
Definition pack (w R : Z) (f : Z -> Z) : Z := mk w (nl w R) f.
(** Lane-wise functions of one, two and three registers. *)
Definition v1 (w R : Z) (f : Z -> Z) (a : Z) : Z := pack w R (fun i => f (lane w i a)).
Definition v2 (w R : Z) (f : Z -> Z -> Z) (a b : Z) : Z :=
  pack w R (fun i => f (lane w i a) (lane w i b)).
Definition v3 (w R : Z) (f : Z -> Z -> Z -> Z) (a b c : Z) : Z :=
  pack w R (fun i => f (lane w i a) (lane w i b) (lane w i c)).
(** The same value in every lane. *)
Definition splat (w R : Z) (c : Z) : Z := pack w R (fun _ => c).

(** Lane width fits the register size. *)
Definition wok (w R : Z) : bool := (0 <? w) && (0 <? R) && (R mod w =? 0).

Lemma wok_spec w R : wok w R = true -> 0 < w /\ 0 < R /\ R = w * (R / w) /\ Z.of_nat (nl w R) = R / w.
Proof.
  unfold wok. rewrite !andb_true_iff, !Z.ltb_lt, Z.eqb_eq. intros [[Hw HR] Hm].
  repeat split; auto.
  - apply Z.div_exact; lia.
  - unfold nl. rewrite Z2Nat.id; [reflexivity|]. apply Z.div_pos; lia.
Qed.

Lemma pack_reg w R f : wok w R = true -> reg R (pack w R f).
Proof.
  intros H. destruct (wok_spec _ _ H) as (Hw & HR & E & En).
  unfold reg, pack. pose proof (mk_range w (nl w R) f ltac:(lia)) as Hr.
  rewrite En, <- E in Hr. exact Hr.
Qed.

Lemma lane_pack w R f i : wok w R = true -> 0 <= i < R / w ->
  lane w i (pack w R f) = wrap w (f i).
Proof.
  intros H Hi. destruct (wok_spec _ _ H) as (Hw & HR & E & En).
  unfold pack. apply lane_mk; lia.
Qed.

Lemma testbit_pack w R f k : wok w R = true -> 0 <= k < R ->
  Z.testbit (pack w R f) k = Z.testbit (f (k / w)) (k mod w).
Proof.
  intros H Hk. destruct (wok_spec _ _ H) as (Hw & HR & E & En).
  unfold pack. rewrite testbit_mk by lia.
  rewrite En. destruct (Z.ltb_spec k (w * (R / w))); [reflexivity|lia].
Qed.

Lemma lane_v1 w R f a i : wok w R = true -> 0 <= i < R / w ->
  lane w i (v1 w R f a) = wrap w (f (lane w i a)).
Proof. intros. unfold v1, v2, v3, splat. rewrite lane_pack by auto. reflexivity. Qed.
Lemma lane_v2 w R f a b i : wok w R = true -> 0 <= i < R / w ->
  lane w i (v2 w R f a b) = wrap w (f (lane w i a) (lane w i b)).
Proof. intros. unfold v1, v2, v3, splat. rewrite lane_pack by auto. reflexivity. Qed.
Lemma lane_v3 w R f a b c i : wok w R = true -> 0 <= i < R / w ->
  lane w i (v3 w R f a b c) = wrap w (f (lane w i a) (lane w i b) (lane w i c)).
Proof. intros. unfold v1, v2, v3, splat. rewrite lane_pack by auto. reflexivity. Qed.
Lemma lane_splat w R c i : wok w R = true -> 0 <= i < R / w ->
  lane w i (splat w R c) = wrap w c.
Proof. intros. unfold v1, v2, v3, splat. rewrite lane_pack by auto. reflexivity. Qed.

Lemma v1_reg w R f a : wok w R = true -> reg R (v1 w R f a).
Proof. intros. unfold v1, v2, v3, splat. apply pack_reg. auto. Qed.
Lemma v2_reg w R f a b : wok w R = true -> reg R (v2 w R f a b).
Proof. intros. unfold v1, v2, v3, splat. apply pack_reg. auto. Qed.
Lemma v3_reg w R f a b c : wok w R = true -> reg R (v3 w R f a b c).
Proof. intros. unfold v1, v2, v3, splat. apply pack_reg. auto. Qed.
Lemma splat_reg w R c : wok w R = true -> reg R (splat w R c).
Proof. intros. unfold v1, v2, v3, splat. apply pack_reg. auto. Qed.

Lemma reg_lanes w R x y : wok w R = true -> reg R x -> reg R y ->
  (forall i, 0 <= i < R / w -> lane w i x = lane w i y) -> x = y.
Proof.
  intros H Hx Hy HL. destruct (wok_spec _ _ H) as (Hw & HR & E & En).
  apply (reg_ext w (nl w R)); auto.
  - rewrite En, <- E; auto.
  - rewrite En, <- E; auto.
  - intros i Hi. apply HL. lia.
Qed.

Lemma pack_ext w R f g : wok w R = true ->
  (forall i, 0 <= i < R / w -> wrap w (f i) = wrap w (g i)) -> pack w R f = pack w R g.
Proof.
  intros H HE. destruct (wok_spec _ _ H) as (Hw & HR & E & En).
  unfold pack. apply mk_ext. intros i Hi. apply HE. lia.
Qed.

Lemma pack_lanes w R r : wok w R = true -> reg R r -> pack w R (fun i => lane w i r) = r.
Proof.
  intros H Hr. apply (reg_lanes w R); auto.
  - apply pack_reg; auto.
  - intros. rewrite lane_pack by auto. apply wrap_lane.
Qed.

(** A register expression equals a lane-wise function when its lanes do. *)
Lemma eq_v1 w R f a r : wok w R = true -> reg R r ->
  (forall i, 0 <= i < R / w -> lane w i r = wrap w (f (lane w i a))) -> r = v1 w R f a.
Proof.
  intros H Hr HL. apply (reg_lanes w R); auto; [apply v1_reg; auto|].
  intros. rewrite lane_v1 by auto. auto.
Qed.
Lemma eq_v2 w R f a b r : wok w R = true -> reg R r ->
  (forall i, 0 <= i < R / w -> lane w i r = wrap w (f (lane w i a) (lane w i b))) ->
  r = v2 w R f a b.
Proof.
  intros H Hr HL. apply (reg_lanes w R); auto; [apply v2_reg; auto|].
  intros. rewrite lane_v2 by auto. auto.
Qed.
Lemma eq_v3 w R f a b c r : wok w R = true -> reg R r ->
  (forall i, 0 <= i < R / w ->
     lane w i r = wrap w (f (lane w i a) (lane w i b) (lane w i c))) ->
  r = v3 w R f a b c.
Proof.
  intros H Hr HL. apply (reg_lanes w R); auto; [apply v3_reg; auto|].
  intros. rewrite lane_v3 by auto. auto.
Qed.

Lemma v1_ext w R f g a : wok w R = true ->
  (forall x, 0 <= x < 2 ^ w -> wrap w (f x) = wrap w (g x)) -> v1 w R f a = v1 w R g a.
Proof.
  intros H HE. apply pack_ext; auto. intros.
  destruct (wok_spec _ _ H) as (Hw & _). apply HE; apply lane_range; lia.
Qed.
Lemma v2_ext w R f g a b : wok w R = true ->
  (forall x y, 0 <= x < 2 ^ w -> 0 <= y < 2 ^ w -> wrap w (f x y) = wrap w (g x y)) ->
  v2 w R f a b = v2 w R g a b.
Proof.
  intros H HE. apply pack_ext; auto. intros.
  destruct (wok_spec _ _ H) as (Hw & _). apply HE; apply lane_range; lia.
Qed.
Lemma v3_ext w R f g a b c : wok w R = true ->
  (forall x y z, 0 <= x < 2 ^ w -> 0 <= y < 2 ^ w -> 0 <= z < 2 ^ w ->
     wrap w (f x y z) = wrap w (g x y z)) ->
  v3 w R f a b c = v3 w R g a b c.
Proof.
  intros H HE. apply pack_ext; auto. intros.
  destruct (wok_spec _ _ H) as (Hw & _). apply HE; apply lane_range; lia.
Qed.

(** Whole-register bitwise operations seen lane-wise, for any lane width. *)
Lemma land_v2 w R a b : wok w R = true -> reg R a -> reg R b ->
  Z.land a b = v2 w R Z.land a b.
Proof.
  intros H Ha Hb. destruct (wok_spec _ _ H) as (Hw & HR & _).
  apply eq_v2; auto.
  - apply land_reg; auto; lia.
  - intros i Hi. rewrite lane_land by lia. rewrite <- lane_land by lia. symmetry; apply wrap_lane.
Qed.
Lemma lor_v2 w R a b : wok w R = true -> reg R a -> reg R b ->
  Z.lor a b = v2 w R Z.lor a b.
Proof.
  intros H Ha Hb. destruct (wok_spec _ _ H) as (Hw & HR & _).
  apply eq_v2; auto.
  - apply lor_reg; auto; lia.
  - intros i Hi. rewrite lane_lor by lia. rewrite <- lane_lor by lia. symmetry; apply wrap_lane.
Qed.
Lemma lxor_v2 w R a b : wok w R = true -> reg R a -> reg R b ->
  Z.lxor a b = v2 w R Z.lxor a b.
Proof.
  intros H Ha Hb. destruct (wok_spec _ _ H) as (Hw & HR & _).
  apply eq_v2; auto.
  - apply lxor_reg; auto; lia.
  - intros i Hi. rewrite lane_lxor by lia. rewrite <- lane_lxor by lia. symmetry; apply wrap_lane.
Qed.
Lemma ldiff_v2 w R a b : wok w R = true -> reg R a ->
  Z.ldiff a b = v2 w R Z.ldiff a b.
Proof.
  intros H Ha. destruct (wok_spec _ _ H) as (Hw & HR & _).
  apply eq_v2; auto.
  - apply ldiff_reg; auto; lia.
  - intros i Hi. rewrite lane_ldiff by lia. rewrite <- lane_ldiff by lia. symmetry; apply wrap_lane.
Qed.

Lemma wrap_if w (b : bool) x y : wrap w (if b then x else y) = if b then wrap w x else wrap w y.
Proof. destruct b; reflexivity. Qed.

Lemma wrap_ones w : 0 <= w -> wrap w (ones w) = ones w.
Proof. intros. unfold ones. apply wrap_small. pose proof (pow2_pos w H). lia. Qed.
Lemma wrap_m1 w : 0 <= w -> wrap w (-1) = ones w.
Proof.
  intros. unfold wrap, ones. pose proof (pow2_pos w H).
  symmetry. apply (Z.mod_unique (-1) (2 ^ w) (-1)); lia.
Qed.

(** Widths and register sizes of the library. *)
Lemma wok_lib w s : wok (wb w) (rbits s) = true.
Proof. destruct w, s; reflexivity. Qed.
Lemma wb_pos w : 0 < wb w.
Proof. destruct w; reflexivity. Qed.
#[global] Hint Resolve wok_lib wb_pos : core.
#[global] Hint Resolve v1_reg v2_reg v3_reg splat_reg pack_reg : core.

(** Discharge [wok] side conditions on literals. *)
Ltac wk := solve [ auto | reflexivity ].

(** Families: a valid configuration has exactly one. *)
Lemma valid_no_family A : valid_arch A = true ->
  use_null A = false -> use_sse2 A = false -> use_neon A = false ->
  use_altivec A = false -> use_msa A = false -> False.
Proof.
  unfold valid_arch. rewrite !andb_true_iff. intros H ? ? ? ? ?.
  repeat match goal with H : _ /\ _ |- _ => destruct H end.
  repeat match goal with H : _ = false |- _ => rewrite H in * end. discriminate.
Qed.

(** The implications of a valid configuration, in a form [congruence] can use. *)
Lemma valid_imp A : valid_arch A = true ->
  (use_avx512vl A = true -> use_avx512f A = true) /\
  (use_avx512dq A = true -> use_avx512f A = true) /\
  (use_avx512bw A = true -> use_avx512f A = true) /\
  (use_avx512f A = true -> use_avx2 A = true) /\
  (use_avx2 A = true -> use_avx A = true) /\
  (use_avx A = true -> use_sse41 A = true) /\
  (use_fma3 A = true -> use_sse3 A = true) /\
  (use_xop A = true -> use_sse3 A = true) /\
  (use_sse41 A = true -> use_ssse3 A = true) /\
  (use_popcnt A = true -> use_ssse3 A = true) /\
  (use_ssse3 A = true -> use_sse3 A = true) /\
  (use_sse3 A = true -> use_sse2 A = true).
Proof.
  unfold valid_arch. rewrite !andb_true_iff. intros H.
  repeat match goal with H : _ /\ _ |- _ => destruct H end.
  repeat match goal with H : implb _ _ = true |- _ => rewrite implb_true_iff in H end.
  repeat split; assumption.
Qed.

Lemma valid_excl A : valid_arch A = true ->
  (use_null A = true -> use_sse2 A = false /\ use_neon A = false /\
                        use_altivec A = false /\ use_msa A = false) /\
  (use_sse2 A = true -> use_neon A = false /\ use_altivec A = false /\ use_msa A = false) /\
  (use_neon A = true -> use_altivec A = false /\ use_msa A = false) /\
  (use_altivec A = true -> use_msa A = false) /\
  (use_vsx207 A = true -> use_vsx206 A = true) /\
  (use_vsx206 A = true -> use_altivec A = true) /\
  (use_neon_flt_sp A = true -> use_neon A = true) /\
  (use_xop A = true -> use_avx512f A = false).
Proof.
  unfold valid_arch. rewrite !andb_true_iff. intros H.
  repeat match goal with H : _ /\ _ |- _ => destruct H end.
  repeat match goal with H : implb _ _ = true |- _ => rewrite implb_true_iff in H end.
  destruct (use_null A), (use_sse2 A), (use_neon A), (use_altivec A), (use_msa A);
    cbn in *; try discriminate; repeat split; intros; auto; try discriminate;
    destruct (use_xop A), (use_avx512f A); cbn in *; auto; discriminate.
Qed.

(** The five CPU families; in each, the flags of all others are off. *)
Definition no_x86 A := use_sse2 A = false /\ use_sse3 A = false /\ use_ssse3 A = false /\
  use_sse41 A = false /\ use_popcnt A = false /\ use_avx A = false /\ use_avx2 A = false /\
  use_xop A = false /\ use_avx512f A = false /\ use_avx512bw A = false /\
  use_avx512dq A = false /\ use_avx512vl A = false.
Definition no_arm A := use_neon A = false /\ use_neon_flt_sp A = false /\ use_neon64 A = false /\
  use_neon32 A = false /\ use_neon32_flt_sp A = false /\ use_neon_no_flt_sp A = false.
Definition no_ppc A := use_altivec A = false /\ use_vsx206 A = false /\ use_vsx207 A = false.
Definition fam_null A := use_null A = true /\ no_x86 A /\ no_arm A /\ no_ppc A /\ use_msa A = false.
Definition fam_x86 A := use_null A = false /\ use_sse2 A = true /\ no_arm A /\ no_ppc A /\ use_msa A = false.
Definition fam_arm A := use_null A = false /\ no_x86 A /\ use_neon A = true /\ no_ppc A /\ use_msa A = false.
Definition fam_ppc A := use_null A = false /\ no_x86 A /\ no_arm A /\ use_altivec A = true /\ use_msa A = false.
Definition fam_msa A := use_null A = false /\ no_x86 A /\ no_arm A /\ no_ppc A /\ use_msa A = true.

Lemma no_x86_ok A : valid_arch A = true -> use_sse2 A = false -> no_x86 A.
Proof.
  intros H E. pose proof (valid_imp _ H) as (X1&X2&X3&X4&X5&X6&X7&X8&X9&X10&X11&X12).
  assert (C : forall a b : bool, (a = true -> b = true) -> b = false -> a = false).
  { intros [|] [|] Q; auto. intros D. specialize (Q eq_refl). congruence. }
  pose proof (C _ _ X12 E) as E3. pose proof (C _ _ X11 E3) as E4.
  pose proof (C _ _ X10 E4). pose proof (C _ _ X9 E4) as E5. pose proof (C _ _ X8 E3).
  pose proof (C _ _ X6 E5) as E6. pose proof (C _ _ X5 E6) as E7.
  pose proof (C _ _ X4 E7) as E8. pose proof (C _ _ X3 E8). pose proof (C _ _ X2 E8).
  pose proof (C _ _ X1 E8). unfold no_x86. repeat split; assumption.
Qed.
Lemma no_arm_ok A : valid_arch A = true -> use_neon A = false -> no_arm A.
Proof.
  intros H E. destruct (valid_excl _ H) as (_ & _ & _ & _ & _ & _ & HN & _).
  assert (use_neon_flt_sp A = false) as E2.
  { destruct (use_neon_flt_sp A); auto. rewrite HN in E; auto. }
  unfold no_arm, use_neon64, use_neon32, use_neon32_flt_sp, use_neon_no_flt_sp.
  rewrite E, E2. repeat split; auto.
Qed.
Lemma no_ppc_ok A : valid_arch A = true -> use_altivec A = false -> no_ppc A.
Proof.
  intros H E. destruct (valid_excl _ H) as (_ & _ & _ & _ & H1 & H2 & _).
  unfold no_ppc. destruct (use_vsx207 A), (use_vsx206 A); repeat split; auto; exfalso;
   try (rewrite H2 in E; auto; congruence); try (specialize (H1 eq_refl); congruence).
Qed.
Lemma families A : valid_arch A = true ->
  fam_null A \/ fam_x86 A \/ fam_arm A \/ fam_ppc A \/ fam_msa A.
Proof.
  intros H. pose proof (valid_excl _ H) as (X1 & X2 & X3 & X4 & _).
  pose proof (no_x86_ok _ H). pose proof (no_arm_ok _ H). pose proof (no_ppc_ok _ H).
  pose proof (valid_no_family _ H) as HN.
  unfold fam_null, fam_x86, fam_arm, fam_ppc, fam_msa.
  destruct (use_null A); [left; destruct (X1 eq_refl) as (? & ? & ? & ?); tauto|right].
  destruct (use_sse2 A); [left; destruct (X2 eq_refl) as (? & ? & ?); tauto|right].
  destruct (use_neon A); [left; destruct (X3 eq_refl) as (? & ?); tauto|right].
  destruct (use_altivec A); [left; specialize (X4 eq_refl); tauto|right].
  destruct (use_msa A); [tauto|]. exfalso; auto.
Qed.

Ltac rw_flags :=
  repeat match goal with
  | E : ?f ?A = true |- context [?f ?A] => rewrite E
  | E : ?f ?A = false |- context [?f ?A] => rewrite E
  end; cbn [andb orb negb].
(** Split into the CPU families and resolve the flags each of them fixes. *)
Ltac fam HV :=
  let F := fresh "F" in
  destruct (families _ HV) as [F|[F|[F|[F|F]]]];
  unfold fam_null, fam_x86, fam_arm, fam_ppc, fam_msa, no_x86, no_arm, no_ppc in F;
  repeat match type of F with _ /\ _ => let G := fresh "G" in destruct F as [G F] end;
  repeat match goal with X : _ /\ _ |- _ => destruct X end;
  rw_flags.

(** Two hypotheses that disagree about a flag.  ([congruence] would normalise every
    hypothesis, including register ranges, and not terminate.) *)
Ltac fcontra :=
  exfalso; match goal with
  | E : ?x = true, F : ?x = false |- _ => rewrite E in F; discriminate F
  | E : true = false |- _ => discriminate E
  | E : false = true |- _ => discriminate E
  end.
(** Refute an impossible rung of a ladder. *)
Ltac vimp H :=
  first [ fcontra |
  let HI := fresh in let HE := fresh in
  pose proof (valid_imp _ H) as HI; pose proof (valid_excl _ H) as HE;
  exfalso;
  repeat match goal with X : _ /\ _ |- _ => destruct X end;
  repeat match goal with X : ?p -> _, Y : ?p |- _ => specialize (X Y) end;
  repeat match goal with X : _ /\ _ |- _ => destruct X end;
  repeat match goal with X : ?p -> _, Y : ?p |- _ => specialize (X Y) end;
  first [ fcontra | eapply (valid_no_family _ H); eassumption ] ].

(** Split the innermost undecided condition of a ladder: one flag at a time. *)
Ltac split_if :=
  match goal with
  | |- context [if ?c then _ else _] =>
      lazymatch c with
      | context [if _ then _ else _] => fail
      | _ => first
        [ match c with context [?f ?A] => lazymatch type of A with arch =>
            let E := fresh "E" in destruct (f A) eqn:E; cbn [andb orb negb] end end
        | let E := fresh "E" in destruct c eqn:E ]
      end
  end.

Ltac ex_lane_range :=
  repeat match goal with
  | |- context [lane ?w ?i ?r] =>
      let x := fresh "x" in
      let H := fresh "Hx" in
      assert (H : 0 <= lane w i r < 2 ^ w) by (apply lane_range; lia);
      generalize dependent (lane w i r); intros x H
  end.
