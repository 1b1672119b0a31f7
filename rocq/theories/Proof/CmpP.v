(** Comparisons: every rung yields the mask of the lane-wise predicate. *)
From Verif Require Export Model.Cmp Proof.MaskP Proof.ShiftP.
From Coq Require Import Lia.

Lemma kv_ok w R f a b p : wok w R = true ->
  (forall i, 0 <= i < R / w -> f (lane w i a) (lane w i b) = tf w (p i)) ->
  mask_rel KVec w R (v2 w R f a b) p.
Proof. intros H E. cbn [mask_rel]. apply pack_ext; auto. intros i Hi. rewrite E by auto. reflexivity. Qed.
Lemma kb_ok w R q p : wok w R = true -> (forall i, 0 <= i < R / w -> q i = p i) ->
  mask_rel KBits w R (kmask w R q) p.
Proof. intros H E. eapply mask_rel_ext; [auto|exact E|apply kmask_rel; auto]. Qed.
Lemma kn_ok w f (g : Z -> Z -> bool) (sg : bool) a b p :
  (forall x y, f x y = c_cmp g x y) ->
  (forall i, 0 <= i < 128 / wb w ->
    (if sg then g (sgn (wb w) (lane (wb w) i a)) (sgn (wb w) (lane (wb w) i b))
     else g (lane (wb w) i a) (lane (wb w) i b)) = p i) ->
  Rok (fun m => mask_rel KNull (wb w) 128 m p) (null_cmp f (sg2 sg (st w) (ut w)) 128 a b).
Proof.
  intros Hf Hp. destruct sg; cbn [sg2].
  - change 128 with (rbits R128). rewrite (null_cmp_s_ok w R128 f a b p); [reflexivity|].
    intros i Hi. rewrite Hf, c_cmp_s. auto.
  - change 128 with (rbits R128). rewrite (null_cmp_ok w R128 f a b p); [reflexivity|].
    intros i Hi. rewrite Hf, c_cmp_u. auto.
Qed.

(** bias by the sign bit *)
Lemma lxor_sign w x : 0 < w -> 0 <= x < 2 ^ w ->
  Z.lxor x (2 ^ (w - 1)) = if x <? 2 ^ (w - 1) then x + 2 ^ (w - 1) else x - 2 ^ (w - 1).
Proof.
  intros Hw Hx. assert (E : 2 ^ w = 2 * 2 ^ (w - 1)) by (rewrite <- Z.pow_succ_r by lia; f_equal; lia).
  pose proof (pow2_pos (w - 1) ltac:(lia)) as Hp.
  destruct (Z.ltb_spec x (2 ^ (w - 1))).
  - rewrite Z.add_nocarry_lxor; [reflexivity|]. apply Z.bits_inj'. intros k Hk.
    rewrite Z.land_spec, Z.pow2_bits_eqb, Z.bits_0 by lia.
    destruct (Z.eqb_spec (w - 1) k); [|apply andb_false_r]. subst k.
    rewrite (testbit_high (w - 1)) by lia. reflexivity.
  - set (y := x - 2 ^ (w - 1)). replace x with (y + 2 ^ (w - 1)) by (subst y; lia).
    assert (Hy : 0 <= y < 2 ^ (w - 1)) by (subst y; lia).
    assert (Ey : y + 2 ^ (w - 1) = Z.lxor y (2 ^ (w - 1))).
    { apply Z.add_nocarry_lxor. apply Z.bits_inj'. intros k Hk.
      rewrite Z.land_spec, Z.pow2_bits_eqb, Z.bits_0 by lia.
      destruct (Z.eqb_spec (w - 1) k); [|apply andb_false_r]. subst k.
      rewrite (testbit_high (w - 1)) by lia. reflexivity. }
    rewrite Ey, Z.lxor_assoc, Z.lxor_nilpotent, Z.lxor_0_r. reflexivity.
Qed.
Lemma sgn_flip w x : 0 < w -> 0 <= x < 2 ^ w -> sgn w (Z.lxor x (2 ^ (w - 1))) = x - 2 ^ (w - 1).
Proof.
  intros Hw Hx. assert (E : 2 ^ w = 2 * 2 ^ (w - 1)) by (rewrite <- Z.pow_succ_r by lia; f_equal; lia).
  pose proof (pow2_pos (w - 1) ltac:(lia)) as Hp. rewrite lxor_sign by auto. unfold sgn.
  destruct (Z.ltb_spec x (2 ^ (w - 1))).
  - rewrite Z.mod_small by lia. destruct (Z.ltb_spec (x + 2 ^ (w - 1)) (2 ^ (w - 1))); lia.
  - rewrite Z.mod_small by lia. destruct (Z.ltb_spec (x - 2 ^ (w - 1)) (2 ^ (w - 1))); lia.
Qed.
Lemma ltb_sub a b c : (a - c <? b - c) = (a <? b).
Proof. destruct (Z.ltb_spec (a - c) (b - c)), (Z.ltb_spec a b); lia || reflexivity. Qed.

Definition flipv (w R a : Z) : Z := Z.lxor a (splat w R (2 ^ (w - 1))).
Lemma lane_flipv w R a i : wok w R = true -> 0 <= i < R / w ->
  lane w i (flipv w R a) = Z.lxor (lane w i a) (2 ^ (w - 1)).
Proof.
  intros H Hi. destruct (wok_spec _ _ H) as (Hw & _). unfold flipv.
  rewrite lane_lxor by lia. rewrite lane_splat by auto. f_equal. apply wrap_small.
  pose proof (pow2_pos (w - 1) ltac:(lia)). split; [lia|]. apply Z.pow_lt_mono_r; lia.
Qed.
Lemma flip2_ok A w s a b k : valid_arch A = true -> avail_int A (wb w) s = true ->
  reg (rbits s) a -> reg (rbits s) b ->
  flip2 A w s a b k = Ok (k (flipv (wb w) (rbits s) a) (flipv (wb w) (rbits s) b)).
Proof.
  intros. unfold flip2. rewrite konst_ok by auto. cbn [bind]. rewrite !i_bit_xor_ok by auto. reflexivity.
Qed.

Ltac cmpb :=
  intros; cbn beta;
  rewrite ?lane_flipv, ?sgn_flip, ?ltb_sub by (auto; apply ulane_range || (apply lane_range; lia) || lia);
  try reflexivity;
  first [ f_equal; apply Z.ltb_antisym | f_equal; apply Z.leb_antisym | symmetry; apply Z.ltb_antisym
        | symmetry; apply Z.leb_antisym
        | apply Z.gtb_ltb | apply Z.geb_leb | apply negb_involutive ].
Ltac cleaf :=
  cbn [Rok sg2]; autounfold with isa;
  lazymatch goal with
  | |- mask_rel KVec _ _ (v2 _ _ _ _ _) _ => apply kv_ok; [reflexivity|cmpb]
  | |- mask_rel KBits _ _ (kmask _ _ _) _ => apply kb_ok; [reflexivity|cmpb]
  end.

Ltac rw_in HB :=
  repeat match goal with
  | E : ?f ?A = true |- _ => lazymatch type of A with arch => rewrite E in HB end
  | E : ?f ?A = false |- _ => lazymatch type of A with arch => rewrite E in HB end
  end; cbn [andb orb negb] in HB.
Ltac nleaf :=
  cbn [sg2];
  lazymatch goal with
  | |- Rok _ (?nc ?t _ _ _) =>
    let W := lazymatch t with st ?w => w | ut ?w => w end in
    let sg := lazymatch t with st _ => true | ut _ => false end in
    lazymatch nc with
    | null_cmp_eq => apply (kn_ok W c_eq Z.eqb sg)
    | null_cmp_neq => apply (kn_ok W c_neq (fun x y => negb (x =? y)) sg)
    | null_cmp_lt => apply (kn_ok W c_lt Z.ltb sg)
    | null_cmp_le => apply (kn_ok W c_le Z.leb sg)
    | null_cmp_gt => apply (kn_ok W c_gt Z.gtb sg)
    | null_cmp_ge => apply (kn_ok W c_ge Z.geb sg)
    end; [reflexivity | cmpb]
  end.
Ltac cgo HV HA := ladr HV HA ltac:(idtac; first [cleaf | nleaf]).

(** the two halves of a 64-bit lane *)
Lemma swap32_ok A r : valid_arch A = true -> reg 128 r ->
  swap32 A r = Ok (Z.lor (shl_v 64 128 32 r) (shr_v false 64 128 32 r)).
Proof.
  intros HV Hr. unfold swap32.
  rewrite (i_shift_l_t_ok A W64 R128), (i_shift_r_t_ok A false W64 R128) by (auto; first [reflexivity | cbn; lia]). cbn [bind rbits wb].
  rewrite (i_bit_or_ok A W64 R128); auto; apply v1_reg; reflexivity.
Qed.
Lemma swap_half x y : 0 <= x < 2 ^ 32 -> 0 <= y < 2 ^ 32 ->
  Z.lor (wrap 64 (Z.shiftl (x + y * 2 ^ 32) 32)) (wrap 64 (Z.shiftr (x + y * 2 ^ 32) 32)) = y + x * 2 ^ 32.
Proof.
  intros Hx Hy. apply (bits_ext 64); try lia.
  - apply (lor_reg' 64); try lia; apply wrap_range; lia.
  - intros k Hk. rewrite Z.lor_spec, !testbit_wrap, Z.shiftl_spec, Z.shiftr_spec by lia.
    destruct (Z.ltb_spec k 64); [|lia]. cbn [andb].
    rewrite !(testbit_add_disjoint _ _ 32 k) by lia.
    rewrite (testbit_add_disjoint _ _ 32 (k + 32)) by lia.
    destruct (Z.ltb_spec (k + 32) 32); [lia|]. replace (k + 32 - 32) with k by lia.
    destruct (Z.ltb_spec k 32).
    + rewrite Z.testbit_neg_r by lia. reflexivity.
    + rewrite (testbit_add_disjoint _ _ 32 (k - 32)) by lia.
      destruct (Z.ltb_spec (k - 32) 32); [|lia]. rewrite (testbit_high 32 y) by lia. apply orb_false_r.
Qed.
Lemma tf64_halves b : tf 32 b + tf 32 b * 2 ^ 32 = tf 64 b.
Proof. destruct b; reflexivity. Qed.
Lemma eqb_halves x y x' y' : 0 <= x < 2 ^ 32 -> 0 <= x' < 2 ^ 32 -> 
  (x + y * 2 ^ 32 =? x' + y' * 2 ^ 32) = (x =? x') && (y =? y').
Proof.
  intros. destruct (Z.eqb_spec x x'), (Z.eqb_spec y y'), (Z.eqb_spec (x + y * 2 ^ 32) (x' + y' * 2 ^ 32)); cbn [andb]; lia.
Qed.
Lemma swap32_tfv A p : valid_arch A = true ->
  swap32 A (tfv 32 128 p) = Ok (tfv 32 128 (fun i => p (if Z.even i then i + 1 else i - 1))).
Proof.
  intros HV. rewrite swap32_ok by auto. f_equal. apply (reg_lanes 64 128); auto.
  { apply lor_reg'; try apply v1_reg; reflexivity. }
  intros i Hi. change (128 / 64) with 2 in Hi.
  assert (T : forall q, lane 64 i (tfv 32 128 q) = tf 32 (q (2 * i)) + tf 32 (q (2 * i + 1)) * 2 ^ 32).
  { intros q. change 64 with (32 * 2). rewrite lane_double by lia. rewrite !lane_tfv by (reflexivity || (change (128 / 32) with 4; lia)). reflexivity. }
  rewrite lane_lor by lia. unfold shl_v, shr_v. rewrite !lane_v1 by (auto; change (128 / 64) with 2; lia).
  rewrite !T, swap_half by (apply tf_range; lia).
  rewrite Z.even_mul, Z.even_add, Z.even_mul. cbn [Z.even orb Bool.eqb].
  replace (2 * i + 1 - 1) with (2 * i) by lia. reflexivity.
Qed.

Lemma neon_w A : use_neon A = true -> use_neon64 A = false -> use_neon32 A = false -> False.
Proof. unfold use_neon64, use_neon32. intros ->. destruct (use_64 A); discriminate. Qed.
(** a ladder some of whose rungs are proved by [HE] *)
Ltac cgo2 HE HB :=
  lazymatch goal with HV : valid_arch _ = true, HA : avail_int _ _ _ = true |- _ =>
    fam HV; repeat split_if;
    lazymatch goal with
    | |- Rok _ UB => first [vimp HV | rw_in HB; discriminate HB | exfalso; eapply neon_w; eassumption]
    | |- Rok _ NotImpl => first [ cbn in HA; fcontra | vimp HV | rw_in HB; discriminate HB
                                | exfalso; rw_in HB; eapply neon_w; eassumption ]
    | |- _ => first [ exact HE
                    | unfold mrel, mk_int; cbn [rbits wb]; rw_flags; repeat split_if; first [ cleaf | nleaf | vimp HV ]
                    | vimp HV | rw_in HB; discriminate HB ]
    end
  end.
Section Cmp.
  Variables (A : arch).
  Hypotheses (HV : valid_arch A = true).

  Lemma i_cmp_eq_d_ok w s a b : avail_int A (wb w) s = true -> reg (rbits s) a -> reg (rbits s) b -> w <> W64 ->
    Rok (mrel A w s (fun i => lane (wb w) i a =? lane (wb w) i b)) (i_cmp_eq_d A w s a b).
  Proof.
    intros HA Ha Hb Hw. unfold i_cmp_eq_d, mrel, mk_int, nat512.
    destruct w; try (exfalso; apply Hw; reflexivity); destruct s; cbn [rbits wb] in *; cgo HV HA.
  Qed.
  (** 32-bit results where masks are vectors *)
  Lemma eq32_vec a b : reg 128 a -> reg 128 b -> use_null A = false -> use_avx512vl A = false ->
    i_cmp_eq_d A W32 R128 a b = Ok (tfv 32 128 (fun i => lane 32 i a =? lane 32 i b)).
  Proof.
    intros Ha Hb Hn Hv. pose proof (i_cmp_eq_d_ok W32 R128 a b eq_refl Ha Hb ltac:(discriminate)) as H.
    destruct (i_cmp_eq_d A W32 R128 a b); cbn [Rok] in H; try contradiction.
    unfold mrel, mk_int in H. rewrite Hn, Hv in H. cbn [mask_rel] in H. subst. reflexivity.
  Qed.
  Lemma eq64_halves i a b : 0 <= i < 2 ->
    (lane 64 i a =? lane 64 i b) = (lane 32 (2 * i) a =? lane 32 (2 * i) b) && (lane 32 (2 * i + 1) a =? lane 32 (2 * i + 1) b).
  Proof.
    intros. change 64 with (32 * 2). rewrite !lane_double by lia. apply eqb_halves; apply lane_range; lia.
  Qed.
  Lemma lane64_tfv32 i p : 0 <= i < 2 -> lane 64 i (tfv 32 128 p) = tf 32 (p (2 * i)) + tf 32 (p (2 * i + 1)) * 2 ^ 32.
  Proof.
    intros. change 64 with (32 * 2). rewrite lane_double by lia.
    rewrite !lane_tfv by (reflexivity || (change (128 / 32) with 4; lia)). reflexivity.
  Qed.
  Lemma land_tf w x y : Z.land (tf w x) (tf w y) = tf w (x && y).
  Proof. destruct x, y; unfold tf; rewrite ?Z.land_diag, ?Z.land_0_l, ?Z.land_0_r; reflexivity. Qed.
  Lemma land_tfv w R p q : wok w R = true -> Z.land (tfv w R p) (tfv w R q) = tfv w R (fun i => p i && q i).
  Proof.
    intros H. destruct (wok_spec _ _ H) as (Hw & HR & _). apply eq_tfv; auto.
    intros i Hi. rewrite lane_land, !lane_tfv by (auto; lia). apply land_tf.
  Qed.
  Lemma lor_tfv w R p q : wok w R = true -> Z.lor (tfv w R p) (tfv w R q) = tfv w R (fun i => p i || q i).
  Proof.
    intros H. destruct (wok_spec _ _ H) as (Hw & HR & _). apply eq_tfv; auto.
    intros i Hi. rewrite lane_lor, !lane_tfv by (auto; lia).
    destruct (p i), (q i); unfold tf; rewrite ?Z.lor_diag, ?Z.lor_0_l, ?Z.lor_0_r; reflexivity.
  Qed.
  Lemma tfv_64_32 p : tfv 32 128 (fun i => p (i / 2)) = tfv 64 128 p.
  Proof.
    apply eq_tfv; auto. intros i Hi. rewrite lane64_tfv32 by auto.
    replace (2 * i / 2) with i by (rewrite Z.mul_comm, Z.div_mul; lia).
    replace ((2 * i + 1) / 2) with i by (apply (Z.div_unique _ _ _ 1); lia). apply tf64_halves.
  Qed.
  Lemma vtrn32_tfv hi p : vtrn 32 128 hi (tfv 32 128 p) (tfv 32 128 p) = tfv 32 128 (fun i => p (2 * (i / 2) + Z.b2z hi)).
  Proof.
    apply eq_tfv; auto. { apply lsh_reg; reflexivity. }
    intros i Hi. change (128 / 32) with 4 in Hi. unfold vtrn.
    pose proof (Z.div_mod i 2 ltac:(lia)) as Ei. pose proof (Z.mod_pos_bound i 2 ltac:(lia)) as Hm.
    rewrite Ei at 1. rewrite lane_lsh by (try reflexivity; change (128 / (2 * 32)) with 2; lia).
    destruct (Z.eqb_spec (i mod 2) 0); cbn [nth]; rewrite lane_tfv by (reflexivity || (change (128 / 32) with 4; destruct hi; lia));
    destruct hi; reflexivity.
  Qed.
  Theorem i_cmp_eq_ok w s a b : avail_int A (wb w) s = true -> reg (rbits s) a -> reg (rbits s) b ->
    Rok (mrel A w s (fun i => lane (wb w) i a =? lane (wb w) i b)) (i_cmp_eq A w s a b).
  Proof.
    intros HA Ha Hb. unfold i_cmp_eq. destruct w; try (apply i_cmp_eq_d_ok; auto; discriminate).
    destruct s; [|unfold i_cmp_eq_d, mrel, mk_int, nat512; cbn [rbits wb] in *; cgo HV HA..].
    unfold mrel, mk_int, xop_com; cbn [rbits wb] in *; fam HV; repeat split_if;
    lazymatch goal with
    | |- Rok _ (let* _ := i_cmp_eq_d _ _ _ _ _ in _) => rewrite eq32_vec by auto; cbn [bind]
    | |- Rok _ UB => first [vimp HV | exfalso; eapply (neon_w A); eassumption]
    | _ => first [cleaf | nleaf | vimp HV]
    end;
    lazymatch goal with
    | |- Rok _ (let* _ := swap32 _ _ in _) =>
       rewrite swap32_tfv by auto; cbn [bind]; rewrite (i_bit_and_ok A W64 R128) by auto; rewrite land_tfv by auto
    | |- Rok _ (i_bit_and _ _ _ _ _) => rewrite !vtrn32_tfv, (i_bit_and_ok A W32 R128), land_tfv by auto
    end; cbn [Rok mask_rel]; fold (tfv 64 128 (fun i => lane 64 i a =? lane 64 i b));
    rewrite <- tfv_64_32; apply tfv_eq; auto; intros i Hi; change (128 / 32) with 4 in Hi;
    
    cbn beta; rewrite (eq64_halves (i / 2)) by (split; [apply Z.div_pos; lia|apply Z.div_lt_upper_bound; lia]); cbn [Z.b2z];
    assert (C : i = 0 \/ i = 1 \/ i = 2 \/ i = 3) by lia; destruct C as [->|[->|[->| ->]]]; cbn; try reflexivity; apply andb_comm.
  Qed.

  (** all comparisons that go through the negation of another *)
  Lemma via_not w s r p q : avail_int A (wb w) s = true -> Rok (mrel A w s p) r ->
    (forall i, 0 <= i < rbits s / wb w -> negb (p i) = q i) ->
    Rok (mrel A w s q) (let* m := r in i_bit_not_m A w s m).
  Proof.
    intros HA Hr Hq. apply (Rok_mrel_ext A w s _ (fun i => negb (p i))); auto.
    eapply Rok_bind; [exact Hr|]. intros m Hm. apply i_bit_not_m_ok; auto.
  Qed.

  (** cmp_neq.h:193-200 has no negation and is excluded *)
  Definition neq_bad (w : ew) (s : rsz) : bool :=
    match w, s with W64, R128 => use_sse2 A && negb (use_sse41 A) && negb (xop_com A) | _, _ => false end.
  Theorem i_cmp_neq_ok w s a b : avail_int A (wb w) s = true -> reg (rbits s) a -> reg (rbits s) b ->
    neq_bad w s = false ->
    Rok (mrel A w s (fun i => negb (lane (wb w) i a =? lane (wb w) i b))) (i_cmp_neq A w s a b).
  Proof.
    intros HA Ha Hb HB.
    assert (HE : Rok (mrel A w s (fun i => negb (lane (wb w) i a =? lane (wb w) i b))) (let* m := i_cmp_eq A w s a b in i_bit_not_m A w s m)).
    { eapply via_not; [auto|apply i_cmp_eq_ok; auto|reflexivity]. }
    unfold i_cmp_neq. set (X := let* m := i_cmp_eq A w s a b in i_bit_not_m A w s m) in *. clearbody X.
    unfold neq_bad, xop_com, nat512 in *. destruct w, s; cbn [rbits wb] in *; cgo2 HE HB.
  Qed.

  (** int64/uint64 order comparisons do not exist on x86 without AVX2 or XOP, nor on 32-bit
      NEON: those rungs are SIMDPP_NOT_IMPLEMENTED2 *)
  Definition order_missing (w : ew) (s : rsz) : bool :=
    match w, s with W64, R128 => (use_sse2 A && negb (use_avx2 A) && negb (xop_com A)) || use_neon32 A | _, _ => false end.
  Definition lt_of (sg : bool) (w : ew) (x y : Z) : bool := if sg then sgn (wb w) x <? sgn (wb w) y else x <? y.
  Definition le_of (sg : bool) (w : ew) (x y : Z) : bool := if sg then sgn (wb w) x <=? sgn (wb w) y else x <=? y.

  Theorem i_cmp_lt_ok sg w s a b : avail_int A (wb w) s = true -> reg (rbits s) a -> reg (rbits s) b ->
    order_missing w s = false ->
    Rok (mrel A w s (fun i => lt_of sg w (lane (wb w) i a) (lane (wb w) i b))) (i_cmp_lt A sg w s a b).
  Proof.
    intros HA Ha Hb HB. unfold i_cmp_lt.
    pose proof (fun k => flip2_ok A w s a b k HV HA Ha Hb) as HF.
    unfold order_missing, xop_com, nat512, lt_of in *. destruct sg, w, s; cbn [rbits wb sg2] in *; cbn [andb negb];
    rewrite ?HF; clear HF; cgo2 HB HB.
  Qed.
  Theorem i_cmp_gt_ok sg w s a b : avail_int A (wb w) s = true -> reg (rbits s) a -> reg (rbits s) b ->
    order_missing w s = false ->
    Rok (mrel A w s (fun i => lt_of sg w (lane (wb w) i b) (lane (wb w) i a))) (i_cmp_gt A sg w s a b).
  Proof.
    intros HA Ha Hb HB. unfold i_cmp_gt.
    pose proof (fun k => flip2_ok A w s a b k HV HA Ha Hb) as HF.
    unfold order_missing, xop_com, nat512, lt_of in *. destruct sg, w, s; cbn [rbits wb sg2] in *; cbn [andb negb];
    rewrite ?HF; clear HF; cgo2 HB HB.
  Qed.
  Lemma nlt_le sg w x y : negb (lt_of sg w y x) = le_of sg w x y.
  Proof. unfold lt_of, le_of. destruct sg; symmetry; apply Z.leb_antisym. Qed.
  Theorem i_cmp_le_ok sg w s a b : avail_int A (wb w) s = true -> reg (rbits s) a -> reg (rbits s) b ->
    order_missing w s = false ->
    Rok (mrel A w s (fun i => le_of sg w (lane (wb w) i a) (lane (wb w) i b))) (i_cmp_le A sg w s a b).
  Proof.
    intros HA Ha Hb HB.
    assert (HE : Rok (mrel A w s (fun i => le_of sg w (lane (wb w) i a) (lane (wb w) i b)))
      (let* m := i_cmp_gt A sg w s a b in i_bit_not_m A w s m)).
    { eapply via_not; [auto|apply i_cmp_gt_ok; auto|]. intros. apply nlt_le. }
    unfold i_cmp_le. set (X := let* m := i_cmp_gt A sg w s a b in i_bit_not_m A w s m) in *. clearbody X.
    unfold order_missing, xop_com, nat512, le_of in *. destruct sg, w, s; cbn [rbits wb sg2] in *; cbn [andb negb]; cgo2 HE HB.
  Qed.
  Theorem i_cmp_ge_ok sg w s a b : avail_int A (wb w) s = true -> reg (rbits s) a -> reg (rbits s) b ->
    order_missing w s = false ->
    Rok (mrel A w s (fun i => le_of sg w (lane (wb w) i b) (lane (wb w) i a))) (i_cmp_ge A sg w s a b).
  Proof.
    intros HA Ha Hb HB.
    assert (HE : Rok (mrel A w s (fun i => le_of sg w (lane (wb w) i b) (lane (wb w) i a)))
      (let* m := i_cmp_lt A sg w s a b in i_bit_not_m A w s m)).
    { eapply via_not; [auto|apply i_cmp_lt_ok; auto|]. intros. apply nlt_le. }
    unfold i_cmp_ge. set (X := let* m := i_cmp_lt A sg w s a b in i_bit_not_m A w s m) in *. clearbody X.
    unfold order_missing, xop_com, nat512, le_of in *. destruct sg, w, s; cbn [rbits wb sg2] in *; cbn [andb negb]; cgo2 HE HB.
  Qed.

  (** masks: at most 16 lanes (the k-register operations used are 16-bit) *)
  Lemma kop_xnor16 n : n <= 16 -> kop_ok n mm512_kxnor (fun x y => Bool.eqb x y).
  Proof.
    intros Hn a b Ha Hb. unfold mm512_kxnor. split.
    - apply wrap_range. lia.
    - intros i Hi. rewrite testbit_wrap, Z.lnot_spec, Z.lxor_spec by lia.
      destruct (Z.ltb_spec i 16); [|lia]. destruct (Z.testbit a i), (Z.testbit b i); reflexivity.
  Qed.
  Definition mask_eq_missing (w : ew) (s : rsz) : bool :=
    match w, s with W16, R512 | W32, R128 | W32, R256 => true | _, _ => false end.
  Theorem i_cmp_eq_mm_ok w s a b p q : mask_cmp_here A w s = true -> rbits s / wb w <= 16 -> mask_eq_missing w s = false ->
    mrel A w s p a -> mrel A w s q b ->
    Rok (mrel A w s (fun i => Bool.eqb (p i) (q i))) (i_cmp_eq_mm A w s a b).
  Proof.
    intros HH Hn HM Ha Hb. assert (EK : mk_int A w s = KBits).
    { unfold mask_cmp_here in HH. unfold mk_int. destruct s; rewrite ?HH; reflexivity. }
    assert (E : i_cmp_eq_mm A w s a b = Ok (mm512_kxnor a b)).
    { unfold i_cmp_eq_mm. rewrite HH. destruct w, s; try reflexivity; discriminate HM. }
    rewrite E. unfold mrel in *. rewrite EK in *. destruct Ha as [Ha0 Ha], Hb as [Hb0 Hb].
    destruct (kop_xnor16 _ Hn a b Ha0 Hb0) as [H1 H2]. cbn [Rok]. split; auto. intros i Hi. rewrite H2, Ha, Hb by auto. reflexivity.
  Qed.
  Theorem i_cmp_neq_mm_ok w s a b p q : mask_cmp_here A w s = true -> rbits s / wb w <= 16 ->
    mrel A w s p a -> mrel A w s q b ->
    Rok (mrel A w s (fun i => xorb (p i) (q i))) (i_cmp_neq_mm A w s a b).
  Proof.
    intros HH Hn Ha Hb. assert (EK : mk_int A w s = KBits).
    { unfold mask_cmp_here in HH. unfold mk_int. destruct s; rewrite ?HH; reflexivity. }
    unfold i_cmp_neq_mm. rewrite HH. unfold mrel in *. rewrite EK in *. destruct Ha as [Ha0 Ha], Hb as [Hb0 Hb].
    destruct (kop_xor16 _ Hn a b Ha0 Hb0) as [H1 H2]. cbn [Rok]. split; auto. intros i Hi. rewrite H2, Ha, Hb by auto. reflexivity.
  Qed.
End Cmp.
