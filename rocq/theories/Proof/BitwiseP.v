(** Bitwise operations compute the whole-register boolean functions. *)
From Verif Require Export Model.Bitwise Proof.MakeConstP Proof.CppLemmas.

(** ---------- tactics ---------- *)
Lemma wb_nonneg w : 0 <= wb w.
Proof. destruct w; cbn; lia. Qed.
#[global] Hint Resolve wb_nonneg : core.
Lemma rb_pos s : 0 < rbits s.
Proof. destruct s; cbn; lia. Qed.
#[global] Hint Resolve rb_pos : core.

Ltac sc :=
  first [ assumption | wk
        | match goal with H : 0 <= ?i < _ |- 0 <= ?i => exact (proj1 H) end
        | lia ].
(** ~a on an R-bit register *)
Definition rnot (R a : Z) : Z := Z.lxor a (ones R).

Lemma ones_reg R : 0 <= R -> reg R (ones R).
Proof. intros. unfold reg, ones. pose proof (pow2_pos R H). lia. Qed.
Lemma testbit_ones R k : 0 <= R -> 0 <= k -> Z.testbit (ones R) k = (k <? R).
Proof.
  intros. unfold ones. rewrite Z.sub_1_r, <- Z.ones_equiv.
  destruct (Z.ltb_spec k R); [apply Z.ones_spec_low|apply Z.ones_spec_high]; lia.
Qed.
Lemma rnot_reg R a : 0 <= R -> reg R a -> reg R (rnot R a).
Proof. intros. apply lxor_reg; auto. apply ones_reg; auto. Qed.
Lemma testbit_rnot R a k : 0 <= R -> 0 <= k < R -> Z.testbit (rnot R a) k = negb (Z.testbit a k).
Proof.
  intros. unfold rnot. rewrite Z.lxor_spec, testbit_ones by lia.
  destruct (Z.ltb_spec k R); [|lia]. destruct (Z.testbit a k); reflexivity.
Qed.
Lemma lane_rnot w R a i : wok w R = true -> 0 <= i < R / w ->
  lane w i (rnot R a) = Z.lxor (lane w i a) (ones w).
Proof.
  intros H Hi. destruct (wok_spec _ _ H) as (Hw & HR & E & En).
  unfold rnot. rewrite lane_lxor by lia. f_equal.
  apply (bits_ext w); try lia; [apply lane_range; lia|apply ones_reg; lia|].
  intros k Hk. rewrite testbit_lane, !testbit_ones by nia.
  destruct (Z.ltb_spec k w); [|lia]. cbn [andb].
  destruct (Z.ltb_spec (w * i + k) R); [reflexivity|nia].
Qed.
Lemma lxor_ones_lnot w x : 0 <= w -> 0 <= x < 2 ^ w -> Z.lxor x (ones w) = wrap w (Z.lnot x).
Proof.
  intros Hw Hx. apply (bits_ext w); auto.
  - apply lxor_reg; auto. apply ones_reg; auto.
  - apply wrap_range; auto.
  - intros k Hk. rewrite Z.lxor_spec, testbit_ones, testbit_wrap, Z.lnot_spec by lia.
    destruct (Z.ltb_spec k w); [|lia]. destruct (Z.testbit x k); reflexivity.
Qed.
Lemma land_reg' R a b : reg R a -> reg R b -> 0 < R -> reg R (Z.land a b).
Proof. intros. apply land_reg; auto; lia. Qed.
Lemma lor_reg' R a b : reg R a -> reg R b -> 0 < R -> reg R (Z.lor a b).
Proof. intros. apply lor_reg; auto; lia. Qed.
Lemma lxor_reg' R a b : reg R a -> reg R b -> 0 < R -> reg R (Z.lxor a b).
Proof. intros. apply lxor_reg; auto; lia. Qed.
Lemma ldiff_reg' R a b : reg R a -> 0 < R -> reg R (Z.ldiff a b).
Proof. intros. apply ldiff_reg; auto; lia. Qed.
Lemma rnot_reg' R a : reg R a -> 0 < R -> reg R (rnot R a).
Proof. intros. apply rnot_reg; auto; lia. Qed.
Lemma reg_0 R : 0 < R -> reg R 0.
Proof. intros. unfold reg. pose proof (pow2_pos R). lia. Qed.
#[global] Hint Resolve land_reg' lor_reg' lxor_reg' ldiff_reg' rnot_reg' reg_0 : core.
#[global] Hint Extern 1 (0 < 128) => reflexivity : core.
#[global] Hint Extern 1 (0 < 256) => reflexivity : core.
#[global] Hint Extern 1 (0 < 512) => reflexivity : core.
#[global] Hint Extern 1 (wok _ _ = true) => reflexivity : core.

(** rewrite lanes of composite registers *)
Ltac lsimp :=
  repeat first
  [ rewrite lane_v2 by sc | rewrite lane_v1 by sc | rewrite lane_v3 by sc
  | rewrite lane_splat by sc | rewrite lane_pack by sc
  | rewrite lane_land by sc | rewrite lane_lor by sc | rewrite lane_lxor by sc
  | rewrite lane_ldiff by sc | rewrite lane_rnot by sc | rewrite lane_of_zero
  | rewrite wrap_lane ].

(** Walk down a ladder; [leaf] proves the rungs that exist. *)
Ltac lad HV HA leaf :=
  fam HV; repeat split_if;
  lazymatch goal with
  | |- UB = Ok _ => vimp HV
  | |- NotImpl = Ok _ => first [ cbn in HA; fcontra | vimp HV ]
  | |- _ => first [ leaf | vimp HV ]
  end.

(** the same, leaving the rungs it cannot prove *)
Ltac ladt HV HA leaf :=
  fam HV; repeat split_if;
  lazymatch goal with
  | |- UB = Ok _ => try vimp HV
  | |- NotImpl = Ok _ => try first [ cbn in HA; fcontra | vimp HV ]
  | |- _ => try first [ solve [leaf] | vimp HV ]
  end.

(** ---------- scalar rungs ---------- *)
Section NullBits.
  Variables (w : ew) (R : Z).
  Hypothesis HR : wok (wb w) R = true.

  Lemma null_bit_and_ok a b : reg R a -> reg R b -> null_bit_and (ut w) R a b = Ok (Z.land a b).
  Proof.
    intros Ha Hb. rewrite (land_v2 (wb w) R a b) by auto. unfold null_bit_and.
    apply (nloop_v2 (ut w)); auto. change (snd (ut w)) with (wb w). intros x y Hx Hy. rewrite !u_cconv by auto.
    eexists; split; [apply (carith_u Z.land w); auto; apply land_reg; auto|reflexivity].
  Qed.
  Lemma null_bit_or_ok a b : reg R a -> reg R b -> null_bit_or (ut w) R a b = Ok (Z.lor a b).
  Proof.
    intros Ha Hb. rewrite (lor_v2 (wb w) R a b) by auto. unfold null_bit_or.
    apply (nloop_v2 (ut w)); auto. change (snd (ut w)) with (wb w). intros x y Hx Hy. rewrite !u_cconv by auto.
    eexists; split; [apply (carith_u Z.lor w); auto; apply lor_reg; auto|reflexivity].
  Qed.
  Lemma null_bit_xor_ok a b : reg R a -> reg R b -> null_bit_xor (ut w) R a b = Ok (Z.lxor a b).
  Proof.
    intros Ha Hb. rewrite (lxor_v2 (wb w) R a b) by auto. unfold null_bit_xor.
    apply (nloop_v2 (ut w)); auto. change (snd (ut w)) with (wb w). intros x y Hx Hy. rewrite !u_cconv by auto.
    eexists; split; [apply (carith_u Z.lxor w); auto; apply lxor_reg; auto|reflexivity].
  Qed.
  (** ~x of an unsigned element: int for the narrow types *)
  Lemma c_not_u x : 0 <= x < 2 ^ wb w ->
    exists v, c_not (ut w, x) = Ok (pt w, v) /\ wrap (wb w) v = wrap (wb w) (Z.lnot x) /\
      (forall t y, upr w t -> 0 <= y < 2 ^ wb w -> c_and (t, y) (pt w, v) = Ok (pt w, Z.ldiff y x)).
  Proof.
    intros Hx. unfold c_not. rewrite promote_ut. cbn [fst snd]. unfold c_and.
    destruct (wb w <? 32) eqn:E.
    - assert (fits (pt w) (Z.lnot x) = true).
      { unfold pt. rewrite E. apply fits_spec. cbn. destruct w; try discriminate; cbn [wb] in *; unfold Z.lnot; lia. }
      rewrite cres_ok by auto. eexists; split; [reflexivity|]. split; [reflexivity|]. intros t y Ht Hy.
      rewrite (carith_p Z.land w) by auto. rewrite <- Z.ldiff_land.
      apply cres_ok. apply pt_fits. apply ldiff_reg; auto.
    - assert (pt w = ut w) as -> by (unfold pt; rewrite E; reflexivity).
      unfold ut at 1. rewrite cres_u. eexists. split; [reflexivity|]. split; [apply wrap_wrap|].
      intros t y Ht Hy.
      assert (0 <= wrap (wb w) (Z.lnot x) < 2 ^ wb w) by (apply wrap_range; auto).
      rewrite (carith_u Z.land w) by (auto; apply land_reg; auto).
      assert (pt w = ut w) as -> by (unfold pt; rewrite E; reflexivity). do 2 f_equal.
      apply (bits_ext (wb w)); auto; [apply land_reg; auto|apply ldiff_reg; auto|].
      intros k Hk. rewrite Z.land_spec, Z.ldiff_spec, testbit_wrap, Z.lnot_spec by lia.
      destruct (Z.ltb_spec k (wb w)); [reflexivity|lia].
  Qed.
  Lemma null_bit_andnot_ok a b : reg R a -> reg R b -> null_bit_andnot (ut w) R a b = Ok (Z.ldiff a b).
  Proof.
    intros Ha Hb. rewrite (ldiff_v2 (wb w) R a b) by auto. unfold null_bit_andnot.
    apply (nloop_v2 (ut w) R (fun x y => let* nb := c_not y in c_and x nb)); auto.
    change (snd (ut w)) with (wb w). intros x y Hx Hy. rewrite !u_cconv by auto.
    destruct (c_not_u y Hy) as (v & -> & _ & Hand). cbn [bind].
    eexists. split; [apply Hand; auto|reflexivity].
  Qed.
  Lemma null_bit_not_ok a : reg R a -> null_bit_not (ut w) R a = Ok (rnot R a).
  Proof.
    intros Ha. unfold null_bit_not. destruct (wok_spec _ _ HR) as (Hw & HRp & _).
    assert (rnot R a = v1 (wb w) R Z.lnot a) as ->.
    { apply eq_v1; auto. intros i Hi. rewrite lane_rnot by auto.
      apply lxor_ones_lnot; auto. apply lane_range; auto. }
    apply (nloop_v1 (ut w)); auto. change (snd (ut w)) with (wb w). intros x Hx. rewrite u_cconv by auto.
    destruct (c_not_u x Hx) as (v & -> & E & _). eexists. split; [reflexivity|exact E].
  Qed.
  Lemma null_bit_select_ok on off m : reg R on -> reg R off -> reg R m ->
    null_bit_select (ut w) R on off m = Ok (Z.lor (Z.land on m) (Z.ldiff off m)).
  Proof.
    intros Ha Hb Hm. destruct (wok_spec _ _ HR) as (Hw & HRp & _).
    assert (Z.lor (Z.land on m) (Z.ldiff off m) =
      pack (wb w) R (fun i => Z.lor (Z.land (lane (wb w) i on) (lane (wb w) i m))
                                   (Z.ldiff (lane (wb w) i off) (lane (wb w) i m)))) as ->.
    { apply (reg_lanes (wb w) R); auto. intros i Hi. lsimp.
      rewrite <- lane_land, <- lane_ldiff, <- lane_lor by (auto; lia). symmetry. apply wrap_lane. }
    unfold null_bit_select. apply (nloop_pack (ut w)); auto. change (snd (ut w)) with (wb w). intros i Hi.
    unfold el. change (snd (ut w)) with (wb w).
    pose proof (lane_range (wb w) i on ltac:(auto)). pose proof (lane_range (wb w) i off ltac:(auto)).
    pose proof (lane_range (wb w) i m ltac:(auto)).
    rewrite !u_cconv by auto.
    pose proof (land_reg _ _ _ (wb_nonneg w) H H1) as HL.
    pose proof (ldiff_reg _ _ (lane (wb w) i m) (wb_nonneg w) H0) as HD.
    pose proof (lor_reg _ _ _ (wb_nonneg w) HL HD) as HO. unfold reg in *.
    destruct (c_not_u (lane (wb w) i m)) as (v & Hn & _ & Hand); auto. rewrite Hn. cbn [bind].
    rewrite Hand by auto. unfold c_and. rewrite (carith_u Z.land w) by auto. cbn [bind].
    unfold c_or. rewrite (carith_u Z.lor w) by auto.
    eexists; split; reflexivity.
  Qed.
End NullBits.

(** ---------- vectors ---------- *)
Ltac bit_leaf :=
  idtac; lazymatch goal with
  | |- Ok _ = Ok _ => reflexivity
  | |- null_bit_and _ _ _ _ = _ => apply null_bit_and_ok; auto
  | |- null_bit_or _ _ _ _ = _ => apply null_bit_or_ok; auto
  | |- null_bit_xor _ _ _ _ = _ => apply null_bit_xor_ok; auto
  | |- null_bit_andnot _ _ _ _ = _ => apply null_bit_andnot_ok; auto
  | |- null_bit_not _ _ _ = _ => apply null_bit_not_ok; auto
  end.
Theorem i_bit_and_ok A w s a b : valid_arch A = true -> avail_int A (wb w) s = true ->
  reg (rbits s) a -> reg (rbits s) b -> i_bit_and A w s a b = Ok (Z.land a b).
Proof.
  intros HV HA Ha Hb. unfold i_bit_and, bit_ladder.
  destruct s, w; cbn [nat512] in *; lad HV HA bit_leaf.
Qed.
Theorem i_bit_or_ok A w s a b : valid_arch A = true -> avail_int A (wb w) s = true ->
  reg (rbits s) a -> reg (rbits s) b -> i_bit_or A w s a b = Ok (Z.lor a b).
Proof.
  intros HV HA Ha Hb. unfold i_bit_or, bit_ladder.
  destruct s, w; cbn [nat512] in *; lad HV HA bit_leaf.
Qed.
Theorem i_bit_xor_ok A w s a b : valid_arch A = true -> avail_int A (wb w) s = true ->
  reg (rbits s) a -> reg (rbits s) b -> i_bit_xor A w s a b = Ok (Z.lxor a b).
Proof.
  intros HV HA Ha Hb. unfold i_bit_xor, bit_ladder.
  destruct s, w; cbn [nat512] in *; lad HV HA bit_leaf.
Qed.
Lemma nor_self R a : reg R a -> wok 8 R = true ->
  v2 8 R (fun x y => Z.lnot (Z.lor x y)) a a = rnot R a.
Proof.
  intros Ha H. destruct (wok_spec _ _ H) as (_ & HR & _). symmetry. apply eq_v2; auto.
  intros i Hi. rewrite lane_rnot by auto. rewrite Z.lor_diag. apply lxor_ones_lnot; [lia|].
  apply lane_range; lia.
Qed.
Lemma lnot_v1 w R a : reg R a -> wok w R = true -> v1 w R (fun x => Z.lnot x) a = rnot R a.
Proof.
  intros Ha H. destruct (wok_spec _ _ H) as (Hw & HR & _). symmetry. apply eq_v1; auto.
  intros i Hi. rewrite lane_rnot by auto. apply lxor_ones_lnot; [lia|].
  apply lane_range; lia.
Qed.
Lemma land_rnot R a b : 0 < R -> reg R a -> reg R b -> Z.land a (rnot R b) = Z.ldiff a b.
Proof.
  intros HR Ha Hb. apply (bits_ext R); auto; [lia|apply land_reg'; auto|apply ldiff_reg'; auto|].
  intros k Hk. rewrite Z.land_spec, Z.ldiff_spec, testbit_rnot by lia. reflexivity.
Qed.
Theorem i_bit_andnot_ok A w s a b : valid_arch A = true -> avail_int A (wb w) s = true ->
  reg (rbits s) a -> reg (rbits s) b -> i_bit_andnot A w s a b = Ok (Z.ldiff a b).
Proof.
  intros HV HA Ha Hb. unfold i_bit_andnot, bit_ladder.
  destruct s, w; cbn [nat512] in *; lad HV HA ltac:(first [bit_leaf |
    f_equal; unfold msa_and, msa_nor; rewrite nor_self by auto; apply land_rnot; auto]).
Qed.

Lemma splat_ones w R : wok w R = true -> splat w R (ones w) = ones R.
Proof.
  intros H. destruct (wok_spec _ _ H) as (Hw & HR & E & _).
  apply (bits_ext R); [lia|apply splat_reg; auto|apply ones_reg; lia|].
  intros k Hk. unfold splat. rewrite testbit_pack, !testbit_ones by (auto; try lia; apply Z.mod_pos_bound; lia).
  pose proof (Z.mod_pos_bound k w Hw). destruct (Z.ltb_spec (k mod w) w), (Z.ltb_spec k R); lia.
Qed.
Lemma ternlog_not R a : reg R a -> wok 1 R = true -> mm_ternarylogic R a a a 1 = rnot R a.
Proof.
  intros Ha H. destruct (wok_spec _ _ H) as (_ & HR & _). symmetry. apply eq_v3; auto.
  intros i Hi. rewrite lane_rnot by auto. pose proof (lane_range 1 i a ltac:(lia)).
  change (2 ^ 1) with 2 in *. assert (lane 1 i a = 0 \/ lane 1 i a = 1) as [->| ->] by lia; reflexivity.
Qed.
Theorem i_bit_not_ok A w s a : valid_arch A = true -> avail_int A (wb w) s = true ->
  reg (rbits s) a -> i_bit_not A w s a = Ok (rnot (rbits s) a).
Proof.
  intros HV HA Ha. unfold i_bit_not.
  assert (Hx : forall s', avail_int A 8 s' = true -> reg (rbits s') a ->
    (let* c := konst A W8 s' 255 in i_bit_xor A W8 s' a c) = Ok (rnot (rbits s') a)).
  { intros s' HA' Ha'. rewrite konst_ok by auto. cbn [bind]. rewrite i_bit_xor_ok by auto.
    f_equal. unfold rnot. f_equal. apply (splat_ones 8 (rbits s')). destruct s'; reflexivity. }
  destruct s, w; cbn [nat512 rbits] in *; lad HV HA ltac:(first [ apply (Hx R128); auto | apply (Hx R256); auto | bit_leaf; fail |
    f_equal; unfold vmvnq, vec_nor, msa_nor; first [apply nor_self; auto | apply lnot_v1; auto | apply ternlog_not; auto] ]).
Qed.
