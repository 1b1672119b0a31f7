(** C31. *)
From Verif Require Import Model.Expr.
Open Scope Z_scope.

(** the vector type of kind k and width w occupying B bytes *)
Definition shaped (k : kind) (w : width) (B : Z) : vtype := VT k w (B / (bits w / 8)).
Lemma div1 B : B / 1 = B. Proof. apply Z.div_1_r. Qed.

Ltac two v1 v2 H1 H2 HB :=
  destruct v1 as [k1 w1 n1], v2 as [k2 w2 n2]; unfold exists_type, bytes in *; cbn in *;
  destruct k1, w1; (try (destruct H1 as [? [?|?]]; discriminate));
  destruct k2, w2; (try (destruct H2 as [? [?|?]]; discriminate)).

(** The result of a binary operation: argument order does not matter. *)
Theorem expr2_comm : forall v1 v2, exists_type v1 -> exists_type v2 -> bytes v1 = bytes v2 ->
  get_expr2 v1 v2 = get_expr2 v2 v1.
Proof. intros v1 v2 H1 H2 HB. unfold get_expr2. rewrite HB. two v1 v2 H1 H2 HB; reflexivity. Qed.
Theorem expr2_nomask_comm : forall v1 v2, exists_type v1 -> exists_type v2 -> bytes v1 = bytes v2 ->
  get_expr2_nomask v1 v2 = get_expr2_nomask v2 v1.
Proof. intros v1 v2 H1 H2 HB. unfold get_expr2_nomask. rewrite HB. two v1 v2 H1 H2 HB; reflexivity. Qed.
Theorem expr2_nosign_comm : forall v1 v2, exists_type v1 -> exists_type v2 -> bytes v1 = bytes v2 ->
  get_expr2_nosign v1 v2 = get_expr2_nosign v2 v1.
Proof. intros v1 v2 H1 H2 HB. unfold get_expr2_nosign. rewrite HB. two v1 v2 H1 H2 HB; reflexivity. Qed.
Theorem expr2_nomask_nosign_comm : forall v1 v2, exists_type v1 -> exists_type v2 -> bytes v1 = bytes v2 ->
  get_expr2_nomask_nosign v1 v2 = get_expr2_nomask_nosign v2 v1.
Proof. intros v1 v2 H1 H2 HB. unfold get_expr2_nomask_nosign. rewrite HB. two v1 v2 H1 H2 HB; reflexivity. Qed.
Theorem expr_uint_comm : forall v1 v2, wid v1 = wid v2 -> bytes v1 = bytes v2 ->
  get_expr_uint v1 v2 = get_expr_uint v2 v1.
Proof.
  intros v1 v2 HW HB. unfold get_expr_uint. rewrite HB. destruct v1 as [k1 w1 n1], v2 as [k2 w2 n2]. cbn in HW. subst w2.
  destruct k1, w1, k2; reflexivity.
Qed.

(** ... is as documented in types/tag.h for every pair of types except a mask with a
    signed vector, has the wider of the element widths and the same size in bytes *)
Theorem expr2_table_partial : forall v1 v2, exists_type v1 -> exists_type v2 -> bytes v1 = bytes v2 ->
  ~ (knd v1 = MaskInt /\ knd v2 = Int) -> ~ (knd v1 = Int /\ knd v2 = MaskInt) ->
  get_expr2 v1 v2 = Some (shaped (table (knd v1) (knd v2) (same_width (wid v1) (wid v2)))
                            (wmax (wid v1) (wid v2)) (bytes v1)).
Proof.
  intros v1 v2 H1 H2 HB N1 N2. unfold get_expr2, shaped.
  destruct v1 as [k1 w1 n1], v2 as [k2 w2 n2]; unfold exists_type in *; cbn in H1, H2, N1, N2 |- *;
  destruct k1, w1; (try (destruct H1 as [? [?|?]]; discriminate));
  destruct k2, w2; (try (destruct H2 as [? [?|?]]; discriminate)); try tauto;
  cbn -[Z.div bytes]; rewrite ?div1; reflexivity.
Qed.
(** a mask with a signed vector: the table says unsigned, the library says signed (as its
    own examples below the table do) *)
Theorem expr2_mask_int_refuted : forall n, 0 < n ->
  get_expr2 (VT MaskInt B32 n) (VT Int B32 n) = Some (VT Int B32 n) /\ table MaskInt Int true = UInt.
Proof.
  intros n Hn. split; [|reflexivity]. unfold get_expr2, bytes. cbn -[Z.div Z.mul].
  change (32 / 8) with 4. rewrite Z.div_mul by lia. reflexivity.
Qed.
(** in all cases: the type exists, its width is the wider one, its size is preserved *)
Theorem expr2_shape : forall v1 v2, exists_type v1 -> exists_type v2 -> bytes v1 = bytes v2 ->
  exists v, get_expr2 v1 v2 = Some v /\ exists_type v /\ wid v = wmax (wid v1) (wid v2) /\ bytes v = bytes v1.
Proof.
  intros v1 v2 H1 H2 HB.
  assert (forall k w B, 0 < B -> (bits w / 8 | B) -> (match k with Float | MaskFloat => w = B32 \/ w = B64 | _ => True end) ->
     exists_type (shaped k w B) /\ bytes (shaped k w B) = B) as HS.
  { intros k w B HBp [q Hq] Hk. subst B. unfold shaped, bytes, exists_type. cbn.
    assert (0 < bits w / 8) by (destruct w; reflexivity).
    rewrite Z.div_mul by lia. repeat split; auto. nia. }
  assert (0 < bytes v1) as Hpos by (unfold bytes; destruct H1; destruct (wid v1); cbn; lia).
  assert (bits (wid v1) / 8 | bytes v1) as Hd1 by (exists (len v1); reflexivity).
  assert (bits (wid v2) / 8 | bytes v1) as Hd2 by (rewrite HB; exists (len v2); reflexivity).
  assert (bits (wmax (wid v1) (wid v2)) / 8 | bytes v1) as Hd3 by (unfold wmax; destruct (_ <? _); auto).
  set (B := bytes v1) in *.
  assert (exists k, get_expr2 v1 v2 = Some (shaped k (wmax (wid v1) (wid v2)) B) /\
    match k with Float | MaskFloat => wmax (wid v1) (wid v2) = B32 \/ wmax (wid v1) (wid v2) = B64 | _ => True end) as (k & HE & Hk).
  { unfold get_expr2, shaped. fold B. clearbody B. clear HS Hpos Hd1 Hd2 Hd3 HB.
    destruct v1 as [k1 w1 n1], v2 as [k2 w2 n2]; unfold exists_type in *; cbn in H1, H2 |- *;
    destruct k1, w1; (try (destruct H1 as [? [?|?]]; discriminate));
    destruct k2, w2; (try (destruct H2 as [? [?|?]]; discriminate));
    cbn -[Z.div]; rewrite ?div1; eexists; (split; [reflexivity|cbn; auto]). }
  exists (shaped k (wmax (wid v1) (wid v2)) B). split; [exact HE|].
  destruct (HS k _ B Hpos Hd3 Hk). auto.
Qed.

(** the variants: no mask / no signed type in the result *)
Theorem expr2_nomask_result : forall v1 v2 v, get_expr2_nomask v1 v2 = Some v -> is_mask (knd v) = false.
Proof.
  intros [k1 w1 n1] [k2 w2 n2] v H. unfold get_expr2_nomask in H.
  destruct k1, w1, k2, w2; cbn -[bytes Z.div] in H; try discriminate; injection H as <-; reflexivity.
Qed.
Theorem expr2_nosign_result : forall v1 v2 v, get_expr2_nosign v1 v2 = Some v -> knd v <> Int.
Proof.
  intros [k1 w1 n1] [k2 w2 n2] v H. unfold get_expr2_nosign in H.
  destruct k1, w1, k2, w2; cbn -[bytes Z.div] in H; try discriminate; injection H as <-; discriminate.
Qed.
Theorem expr_nomask_nosign_result : forall v1 v, get_expr_nomask_nosign v1 = Some v ->
  is_mask (knd v) = false /\ knd v <> Int /\ wid v = wid v1.
Proof.
  intros [k1 w1 n1] v H. unfold get_expr_nomask_nosign in H.
  destruct k1, w1; cbn -[bytes Z.div] in H; try discriminate; injection H as <-; repeat split; discriminate.
Qed.
(** get_expr2_nomask_nosign does not do what its name says: two masks of the same width
    give a mask *)
Theorem expr2_nomask_nosign_refuted : forall n, 0 < n ->
  get_expr2_nomask_nosign (VT MaskInt B8 n) (VT MaskInt B8 n) = Some (VT MaskInt B8 n).
Proof.
  intros n Hn. unfold get_expr2_nomask_nosign, bytes. cbn -[Z.div Z.mul]. change (8 / 8) with 1.
  rewrite Z.mul_1_r. reflexivity.
Qed.
(** the documented rule for integer arithmetic: masks count as unsigned when both operands
    are masks, otherwise they take the other operand's kind *)
Definition arith_kind (k1 k2 : kind) : kind :=
  match k1, k2 with
  | UInt, _ | _, UInt => UInt | Int, _ | _, Int => Int | _, _ => UInt
  end.
Definition integral (k : kind) : Prop := match k with MaskInt | Int | UInt => True | _ => False end.
Theorem expr_uint_result : forall v1 v2, integral (knd v1) -> integral (knd v2) -> wid v1 = wid v2 ->
  get_expr_uint v1 v2 =
    (Some (shaped (arith_kind (knd v1) (knd v2)) (wid v1) (bytes v1)),
     Some (shaped UInt (wid v1) (bytes v1)), Some (shaped UInt (wid v1) (bytes v1))).
Proof.
  intros [k1 w1 n1] [k2 w2 n2] I1 I2 HW. cbn in I1, I2, HW. subst w2. unfold get_expr_uint, shaped.
  destruct k1, k2; try contradiction; destruct w1; cbn -[bytes Z.div]; rewrite ?div1; reflexivity.
Qed.
(** mask + mask is unsigned, int + mask is int, uint + mask is uint (the examples in tag.h),
    and a scalar operand gives int for masks and signed vectors, uint for unsigned ones *)
Example expr_uint_examples :
  let m := VT MaskInt B32 4 in let i := VT Int B32 4 in let u := VT UInt B32 4 in
  fst (fst (get_expr_uint m m)) = Some u /\ fst (fst (get_expr_uint i m)) = Some i /\
  fst (fst (get_expr_uint u m)) = Some u /\ fst (fst (get_expr_uint i (scalar_as_int i))) = Some i /\
  fst (fst (get_expr_uint (scalar_as_int u) u)) = Some u.
Proof. repeat split. Qed.

(** bit_and / bit_andnot / bit_or: the result type is the documented one; the second
    operand of bit_and stays a mask only next to a vector or mask of matching kind *)
Theorem bitwise_and_type : forall v1 v2, exists_type v1 -> exists_type v2 ->
  fst (fst (get_expr_bitwise2_and v1 v2)) = get_expr2 v1 v2 /\
  fst (fst (get_expr_bit_or v1 v2)) = get_expr2 v1 v2.
Proof.
  intros v1 v2 H1 H2. unfold get_expr_bitwise2_and, get_expr_bit_or, get_expr2.
  destruct v1 as [k1 w1 n1], v2 as [k2 w2 n2]; unfold exists_type in *; cbn in H1, H2.
  destruct k1, w1, k2, w2; split; reflexivity.
Qed.
Definition unsign (k : kind) : kind := match k with Int => UInt | _ => k end.
Theorem bitwise_and_args : forall v1 v2 r a1 a2, exists_type v1 -> exists_type v2 -> wid v1 = wid v2 ->
  get_expr_bitwise2_and v1 v2 = (Some r, Some a1, Some a2) ->
  knd a1 = unsign (knd r) /\ wid a1 = wid r /\ wid a2 = wid r /\
  In (knd a1, knd a2) [(MaskInt, MaskInt); (UInt, MaskInt); (UInt, UInt);
                       (MaskFloat, MaskFloat); (Float, MaskFloat); (Float, Float)].
Proof.
  intros v1 v2 r a1 a2 H1 H2 HW. unfold get_expr_bitwise2_and.
  destruct v1 as [k1 w1 n1], v2 as [k2 w2 n2]; unfold exists_type in *; cbn in H1, H2, HW. subst w2.
  destruct k1, w1, k2; cbn -[bytes Z.div]; intros H; try discriminate;
    injection H as <- <- <-; cbn; auto 20.
Qed.
(** with different widths the second operand is left a mask although the expression is not
    of the documented form "both have the type of the expression" *)
Theorem bitwise_and_mixed_refuted : forall n, 0 < n ->
  get_expr_bitwise2_and (VT UInt B32 n) (VT MaskInt B16 (2 * n)) =
    (Some (VT UInt B32 n), Some (VT UInt B32 n), Some (VT MaskInt B32 n)).
Proof.
  intros n Hn. unfold get_expr_bitwise2_and, bytes. cbn -[Z.div Z.mul].
  change (32 / 8) with 4. rewrite Z.div_mul by lia. reflexivity.
Qed.
Theorem bit_or_args : forall v1 v2 r a1 a2, exists_type v1 -> exists_type v2 ->
  get_expr_bit_or v1 v2 = (Some r, Some a1, Some a2) ->
  a1 = a2 /\ knd a1 = unsign (knd r) /\ wid a1 = wid r /\ len a1 = len r.
Proof.
  intros v1 v2 r a1 a2 H1 H2. unfold get_expr_bit_or.
  destruct v1 as [k1 w1 n1], v2 as [k2 w2 n2]; unfold exists_type in *; cbn in H1, H2.
  destruct k1, w1, k2, w2; cbn -[bytes Z.div]; intros H; try discriminate;
    injection H as <- <- <-; cbn; auto.
Qed.
(** finite case analysis over the kinds and widths *)
Definition kws : list (kind * width) :=
  [(MaskInt,B8);(MaskInt,B16);(MaskInt,B32);(MaskInt,B64);(Int,B8);(Int,B16);(Int,B32);(Int,B64);
   (UInt,B8);(UInt,B16);(UInt,B32);(UInt,B64);(MaskFloat,B32);(MaskFloat,B64);(Float,B32);(Float,B64)].
Lemma kws_all v : exists_type v -> In (knd v, wid v) kws.
Proof.
  destruct v as [k w n]. unfold exists_type. cbn. intros [_ H]. destruct k, w; try (destruct H; discriminate); cbn; tauto.
Qed.
Definition kw_tag (t : Z) : option (kind * width) := option_map (fun v => (knd v, wid v)) (type_of_tag t 0).
Lemma type_kw t B : type_of_tag t B = option_map (fun p => shaped (fst p) (snd p) B) (kw_tag t).
Proof.
  unfold kw_tag, type_of_tag, shaped.
  repeat (match goal with |- context [if ?b then _ else _] => destruct b end; [cbn -[Z.div]; rewrite ?div1; reflexivity|]).
  reflexivity.
Qed.
Definition proto (p : kind * width) : vtype := VT (fst p) (snd p) 0.
Definition kw3 (r : option vtype * option vtype * option vtype) :=
  let '(a, b, c) := r in
  let g := option_map (fun v => (knd v, wid v)) in (g a, g b, g c).
Lemma kw_type t B : option_map (fun v => (knd v, wid v)) (type_of_tag t B) = kw_tag t.
Proof. rewrite type_kw. unfold shaped. destruct (kw_tag t) as [[k w]|]; reflexivity. Qed.
Definition kind_eqb (a b : kind) : bool :=
  match a, b with MaskInt, MaskInt | MaskFloat, MaskFloat | Int, Int | UInt, UInt | Float, Float => true | _, _ => false end.
Definition kw_eqb (a b : kind * width) : bool := kind_eqb (fst a) (fst b) && same_width (snd a) (snd b).
Lemma kw_eqb_eq a b : kw_eqb a b = true -> a = b.
Proof. destruct a as [[] []], b as [[] []]; intros H; try reflexivity; discriminate. Qed.
Definition all3 (f : kind * width -> kind * width -> kind * width -> bool) : bool :=
  forallb (fun a => forallb (fun b => forallb (f a b) kws) kws) kws.
Lemma all3_spec f : all3 f = true -> forall v1 v2 v3, exists_type v1 -> exists_type v2 -> exists_type v3 ->
  f (knd v1, wid v1) (knd v2, wid v2) (knd v3, wid v3) = true.
Proof.
  intros H v1 v2 v3 H1 H2 H3. unfold all3 in H. rewrite forallb_forall in H.
  specialize (H _ (kws_all _ H1)). cbn beta in H. rewrite forallb_forall in H.
  specialize (H _ (kws_all _ H2)). cbn beta in H. rewrite forallb_forall in H. exact (H _ (kws_all _ H3)).
Qed.
(** blend: the type is that of combining the first two operands and then the third; the
    arguments have that type with the sign removed, the third may stay a mask *)
Definition blend_ok (p1 p2 p3 : kind * width) : bool :=
  match kw3 (get_expr_blend (proto p1) (proto p2) (proto p3)),
        option_map (fun v => (knd v, wid v)) (get_expr2 (proto p1) (proto p2)) with
  | (Some r, Some _, Some _), Some q =>
      match option_map (fun v => (knd v, wid v)) (get_expr2 (proto q) (proto p3)) with
      | Some r' => kw_eqb r r' | None => false end
  | _, _ => false end.
Theorem blend_type : forall v1 v2 v3 v12, exists_type v1 -> exists_type v2 -> exists_type v3 ->
  bytes v1 = bytes v2 -> bytes v1 = bytes v3 -> get_expr2 v1 v2 = Some v12 ->
  fst (fst (get_expr_blend v1 v2 v3)) = get_expr2 v12 v3.
Proof.
  intros v1 v2 v3 v12 H1 H2 H3 B2 B3 HE.
  destruct (expr2_shape v1 v2 H1 H2 B2) as (v & HE' & Hv & Hw & HB). rewrite HE in HE'. injection HE' as <-.
  assert (all3 blend_ok = true) as HA by (vm_compute; reflexivity).
  pose proof (all3_spec _ HA v1 v2 v3 H1 H2 H3) as K. clear HA.
  unfold blend_ok in K. unfold get_expr_blend in K |- *. unfold get_expr2 in K, HE |- *. cbv zeta in *. rewrite HB.
  destruct v1 as [k1 w1 n1], v2 as [k2 w2 n2], v3 as [k3 w3 n3], v12 as [k4 w4 n4].
  unfold kw3 in K. rewrite !kw_type in K.
  match type of HE with type_of_tag ?t _ = _ => assert (kw_tag t = Some (k4, w4)) as E4 by
    (rewrite <- (kw_type t (bytes (VT k1 w1 n1))), HE; reflexivity) end.
  unfold type_tag, size_tag, proto in *; cbn [fst snd knd wid] in *.
  rewrite E4 in K. cbn [fst snd] in K. rewrite kw_type in K. rewrite !type_kw.
  repeat match type of K with context [match ?x with Some _ => _ | None => _ end] =>
    lazymatch x with kw_tag _ => destruct x eqn:? end; try discriminate K end.
  apply kw_eqb_eq in K. subst. reflexivity.
Qed.
Definition blend_args_list : list ((kind * kind)) :=
  [(MaskInt, MaskInt); (UInt, UInt); (UInt, MaskInt); (MaskFloat, MaskFloat); (Float, Float); (Float, MaskFloat)].
Definition blend_args_ok (p1 p2 p3 : kind * width) : bool :=
  match kw3 (get_expr_blend (proto p1) (proto p2) (proto p3)) with
  | (Some r, Some a, Some b) =>
      kw_eqb a (unsign (fst r), snd r) && same_width (snd b) (snd r) &&
      existsb (fun q => kind_eqb (fst q) (fst a) && kind_eqb (snd q) (fst b)) blend_args_list
  | _ => false end.
Theorem blend_args : forall v1 v2 v3, exists_type v1 -> exists_type v2 -> exists_type v3 ->
  exists r a b, get_expr_blend v1 v2 v3 = (Some r, Some a, Some b) /\
  knd a = unsign (knd r) /\ wid a = wid r /\ len a = len r /\ wid b = wid r /\ len b = len r /\
  In (knd a, knd b) [(MaskInt, MaskInt); (UInt, UInt); (UInt, MaskInt);
                     (MaskFloat, MaskFloat); (Float, Float); (Float, MaskFloat)].
Proof.
  intros v1 v2 v3 H1 H2 H3.
  assert (all3 blend_args_ok = true) as HA by (vm_compute; reflexivity).
  pose proof (all3_spec _ HA v1 v2 v3 H1 H2 H3) as K. clear HA.
  unfold blend_args_ok in K. unfold get_expr_blend in K |- *. cbv zeta in *.
  destruct v1 as [k1 w1 n1], v2 as [k2 w2 n2], v3 as [k3 w3 n3].
  unfold kw3 in K. rewrite !kw_type in K. rewrite !type_kw.
  unfold type_tag, size_tag, proto in *; cbn [fst snd knd wid] in *.
  repeat match type of K with context [match ?x with Some _ => _ | None => _ end] =>
    lazymatch x with kw_tag _ => destruct x as [[? ?]|] eqn:? end; try discriminate K end.
  apply andb_prop in K as [K Ke]. apply andb_prop in K as [Ka Kb]. apply kw_eqb_eq in Ka. cbn in Ka. injection Ka as -> ->.
  cbn [fst snd] in Kb.
  eexists _, _, _. split; [reflexivity|]. unfold shaped. cbn [fst snd knd wid len].
  match type of Kb with same_width ?x ?y = true => assert (x = y) as -> by (destruct x, y; try reflexivity; discriminate) end.
  repeat (split; [reflexivity|]).
  apply existsb_exists in Ke as (q & Hq & Ke). apply andb_prop in Ke as [K1 K2].
  assert (forall x y, kind_eqb x y = true -> x = y) as KE by (intros [] [] H; try reflexivity; discriminate).
  apply KE in K1, K2. cbn [fst snd] in K1, K2. rewrite <- K1, <- K2. destruct q. exact Hq.
Qed.
Example expr2_case : exists_type (VT Float B32 8) /\ bytes (VT Float B32 8) = bytes (VT MaskInt B16 16) /\
  get_expr2 (VT Float B32 8) (VT MaskInt B16 16) = Some (VT Float B32 8).
Proof. repeat split. left. reflexivity. Qed.
Example blend_case : get_expr_blend (VT Int B16 8) (VT MaskInt B16 8) (VT MaskFloat B32 4) =
  (Some (VT Int B32 4), Some (VT UInt B32 4), Some (VT MaskInt B32 4)).
Proof. reflexivity. Qed.
