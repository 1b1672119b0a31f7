(** Byte provenance: every expression made of shuffle instructions is a selection of bytes
    of its arguments; equality with a wanted selection is then a finite check. *)
From Verif Require Export Base.IsaShuf Base.ShufLift Proof.BitwiseP.

(** Provided the boolean [c] holds, [e] is the selection [M] of bytes of [env], in groups
    of [G] bytes. *)
Definition Sel (c : bool) (R G e : Z) (env : list Z) (M : Z -> src) : Prop :=
  c = true -> gok 8 R G = true /\ e = lsh 8 R G M env.

(** bytes of a selection of lanes of m bytes in groups of n lanes *)
Definition byt (m n : Z) (L : Z -> src) (k : Z) : src :=
  match L ((k / m) mod n) with
  | None => None
  | Some (i, j) => Some (i, m * (n * (k / m / n) + j) + k mod m)
  end.
Definition okb (w R n G : Z) : bool :=
  (0 <? w) && (w mod 8 =? 0) && (0 <? n) && (G mod (w / 8 * n) =? 0) && (0 <? G) && gok w R n && gok 8 R G.
Lemma lsh_regroup w R n q L env : gok w R n = true -> gok w R (n * q) = true -> 0 < q ->
  in_range n L = true ->
  lsh w R n L env = lsh w R (n * q) (fun k => match L (k mod n) with None => None
     | Some (i, j) => Some (i, n * (k / n) + j) end) env.
Proof.
  intros H1 H2 Hq HI. destruct (gok_spec _ _ _ H1) as (Hw & Hp & HR & Hn & E & E2).
  destruct (gok_spec _ _ _ H2) as (_ & _ & _ & Hn2 & E' & E2').
  apply eq_lsh; auto. intros g k Hg Hk.
  assert (0 <= k mod n < n) by (apply Z.mod_pos_bound; lia).
  assert (n * q * g + k = n * (q * g + k / n) + k mod n) as EE.
  { pose proof (Z.div_mod k n). lia. }
  rewrite EE. assert (0 <= k / n < q) by (split; [apply Z.div_pos; lia|apply Z.div_lt_upper_bound; lia]).
  rewrite lane_lsh; auto.
  - destruct (L (k mod n)) as [[i j]|]; auto. f_equal. lia.
  - assert (n * (R / (n * w)) = n * (q * (R / (n * q * w)))) as EQ by (rewrite <- E2, E2'; ring).
    apply Z.mul_reg_l in EQ; [|lia]. rewrite EQ. nia.
Qed.
Lemma byt_lsh w R n G L env : okb w R n G = true -> in_range n L = true ->
  lsh w R n L env = lsh 8 R G (byt (w / 8) n L) env.
Proof.
  intros H HI. unfold okb in H. rewrite !andb_true_iff, !Z.ltb_lt, !Z.eqb_eq in H.
  destruct H as ((((((Hw & Hw8) & Hn) & HG) & HG0) & H1) & H2).
  set (m := w / 8) in *. assert (w = m * 8) as Ew by (subst m; rewrite (Z.div_mod w 8) at 1; lia).
  assert (0 < m) by lia.
  set (q := G / (m * n)) in *. assert (G = (n * q) * m) as EG by (subst q; rewrite (Z.div_mod G (m * n)) at 1; nia).
  assert (0 < q) by nia.
  assert (gok w R (n * q) = true) as H3.
  { destruct (gok_spec _ _ _ H1) as (Hwk & _). destruct (gok_spec _ _ _ H2) as (_ & _ & _ & _ & ER & _).
    unfold gok. rewrite Hwk. cbn [andb]. rewrite andb_true_iff, Z.ltb_lt, Z.eqb_eq. split; [nia|].
    replace (n * q * w) with (G * 8) by nia. rewrite ER. rewrite Z.mul_comm. apply Z.mod_mul. lia. }
  rewrite (lsh_regroup w R n q) by auto.
  rewrite Ew. rewrite (lsh_fine 8 R (n * q) m); auto.
  - rewrite (Z.mul_comm m), <- EG. apply lsh_ext; auto. intros k Hk. unfold fine, byt.
    destruct (L (k / m mod n)) as [[i j]|]; reflexivity.
  - rewrite (Z.mul_comm m), <- EG. auto.
  - rewrite <- Ew. auto.
  - unfold in_range. rewrite forallb_forall. intros k Hk. apply zrange_in in Hk.
    assert (0 <= k mod n < n) by (apply Z.mod_pos_bound; lia).
    destruct (L (k mod n)) as [[i j]|] eqn:EL; auto.
    pose proof (in_range_spec _ _ HI _ _ _ ltac:(eassumption) EL).
    assert (0 <= k / n < q) by (split; [apply Z.div_pos; lia|apply Z.div_lt_upper_bound; lia]).
    rewrite andb_true_iff, Z.leb_le, Z.ltb_lt. nia.
Qed.
Lemma byt_in_range w R n G L : okb w R n G = true -> in_range n L = true -> in_range G (byt (w / 8) n L) = true.
Proof.
  intros H HI. unfold okb in H. rewrite !andb_true_iff, !Z.ltb_lt, !Z.eqb_eq in H.
  destruct H as ((((((Hw & Hw8) & Hn) & HG) & HG0) & H1) & H2).
  set (m := w / 8) in *. assert (w = m * 8) as Ew by (subst m; rewrite (Z.div_mod w 8) at 1; lia).
  assert (0 < m) by lia.
  set (q := G / (m * n)) in *. assert (G = (n * q) * m) as EG by (subst q; rewrite (Z.div_mod G (m * n)) at 1; nia).
  assert (0 < q) by nia.
  unfold in_range. rewrite forallb_forall. intros k Hk. apply zrange_in in Hk. unfold byt.
  assert (0 <= k / m mod n < n) by (apply Z.mod_pos_bound; lia).
  destruct (L (k / m mod n)) as [[i j]|] eqn:EL; auto.
  pose proof (in_range_spec _ _ HI _ _ _ ltac:(eassumption) EL).
  assert (0 <= k / m < n * q) by (split; [apply Z.div_pos; lia|apply Z.div_lt_upper_bound; lia]).
  assert (0 <= k / m / n < q) by (split; [apply Z.div_pos; lia|apply Z.div_lt_upper_bound; lia]).
  assert (0 <= k mod m < m) by (apply Z.mod_pos_bound; lia).
  rewrite andb_true_iff, Z.leb_le, Z.ltb_lt.
  assert (n * (k / m / n) + j <= n * q - 1) by nia.
  nia.
Qed.

Section S.
  Variables (R G : Z) (env : list Z).

  Lemma Sel_arg m e : nth m env 0 = e -> reg R e ->
    Sel (gok 8 R G) R G e env (fun k => Some (m, k)).
  Proof. intros E Hr H. split; auto. symmetry. apply lsh_id; auto. Qed.
  Lemma Sel_zero : Sel (gok 8 R G) R G 0 env (fun k => None).
  Proof.
    intros H. destruct (gok_spec _ _ _ H) as (Hw & Hp & HR & _).
    split; auto. apply eq_lsh; auto. intros. apply lane_of_zero.
  Qed.
  Lemma Sel_lsh1 c w n L x M : Sel c R G x env M ->
    Sel (c && okb w R n G && in_range n L) R G (lsh w R n L [x]) env (comp (byt (w / 8) n L) [M]).
  Proof.
    intros Hx HC. rewrite !andb_true_iff in HC. destruct HC as ((Hc & Ho) & HI).
    destruct (Hx Hc) as (HG & ->). split; auto.
    rewrite (byt_lsh w R n G) by auto.
    apply (lsh_comp 8 R G (byt (w / 8) n L) [M]); auto.
    apply (byt_in_range w R); auto.
  Qed.
  Lemma Sel_lsh2 c d w n L x y M N : Sel c R G x env M -> Sel d R G y env N ->
    Sel (c && d && okb w R n G && in_range n L) R G (lsh w R n L [x; y]) env (comp (byt (w / 8) n L) [M; N]).
  Proof.
    intros Hx Hy HC. rewrite !andb_true_iff in HC. destruct HC as (((Hc & Hd) & Ho) & HI).
    destruct (Hx Hc) as (HG & ->). destruct (Hy Hd) as (_ & ->). split; auto.
    rewrite (byt_lsh w R n G) by auto.
    apply (lsh_comp 8 R G (byt (w / 8) n L) [M; N]); auto.
    apply (byt_in_range w R); auto.
  Qed.
  Lemma Sel_lsh3 c d e w n L x y z M N O : Sel c R G x env M -> Sel d R G y env N -> Sel e R G z env O ->
    Sel (c && d && e && okb w R n G && in_range n L) R G (lsh w R n L [x; y; z]) env (comp (byt (w / 8) n L) [M; N; O]).
  Proof.
    intros Hx Hy Hz HC. rewrite !andb_true_iff in HC. destruct HC as ((((Hc & Hd) & He) & Ho) & HI).
    destruct (Hx Hc) as (HG & ->). destruct (Hy Hd) as (_ & ->). destruct (Hz He) as (_ & ->). split; auto.
    rewrite (byt_lsh w R n G) by auto.
    apply (lsh_comp 8 R G (byt (w / 8) n L) [M; N; O]); auto.
    apply (byt_in_range w R); auto.
  Qed.
  Lemma Sel_lsh4 c d e f w n L x y z u M N O P : Sel c R G x env M -> Sel d R G y env N -> Sel e R G z env O -> Sel f R G u env P ->
    Sel (c && d && e && f && okb w R n G && in_range n L) R G (lsh w R n L [x; y; z; u]) env (comp (byt (w / 8) n L) [M; N; O; P]).
  Proof.
    intros Hx Hy Hz Hu HC. rewrite !andb_true_iff in HC. destruct HC as (((((Hc & Hd) & He) & Hf) & Ho) & HI).
    destruct (Hx Hc) as (HG & ->). destruct (Hy Hd) as (_ & ->). destruct (Hz He) as (_ & ->). destruct (Hu Hf) as (_ & ->). split; auto.
    rewrite (byt_lsh w R n G) by auto.
    apply (lsh_comp 8 R G (byt (w / 8) n L) [M; N; O; P]); auto.
    apply (byt_in_range w R); auto.
  Qed.
  Lemma Sel_if (b : bool) c d x y M N : Sel c R G x env M -> Sel d R G y env N ->
    Sel (if b then c else d) R G (if b then x else y) env (fun k => if b then M k else N k).
  Proof. intros. destruct b; auto. Qed.
  Lemma Sel_lor c d x y M N : Sel c R G x env M -> Sel d R G y env N ->
    Sel (c && d && forallb (fun k => match M k, N k with Some _, Some _ => false | _, _ => true end) (zrange G))
      R G (Z.lor x y) env (merge M N).
  Proof.
    intros Hx Hy HC. rewrite !andb_true_iff in HC. destruct HC as ((Hc & Hd) & HD).
    destruct (Hx Hc) as (HG & ->). destruct (Hy Hd) as (_ & ->). split; auto.
    apply lor_lsh; auto. intros k Hk. pose proof (forallb_zrange _ _ HD k Hk) as HK. cbn in HK.
    destruct (M k), (N k); auto; discriminate.
  Qed.

  (** bytes of a lane pattern that are all-ones or zero *)
  Definition ffb (w c k : Z) : bool := lane 8 (k mod (w / 8)) c =? 255.
  Definition bytemask (w c : Z) : bool :=
    (0 <? w) && (w mod 8 =? 0) &&
    forallb (fun k => (lane 8 k c =? 255) || (lane 8 k c =? 0)) (zrange (w / 8)).
  Lemma splat_msk w c : bytemask w c = true -> okb w R (G / (w / 8)) G = true -> 
    splat w R c = msk 8 R G (ffb w c).
  Proof.
    intros H HO. unfold bytemask in H. rewrite !andb_true_iff, Z.ltb_lt, Z.eqb_eq in H. destruct H as ((Hw & Hm) & HF).
    unfold okb in HO. rewrite !andb_true_iff, !Z.ltb_lt, !Z.eqb_eq in HO.
    destruct HO as ((((((_ & _) & Hn) & HG) & HG0) & H1) & H2).
    destruct (gok_spec _ _ _ H1) as (Hwk & Hp & HR & _). destruct (gok_spec _ _ _ H2) as (Hwk8 & _ & _ & _ & E & E2).
    set (m := w / 8) in *. assert (w = 8 * m) as Ew by (subst m; rewrite (Z.div_mod w 8) at 1; lia).
    assert (0 < m) by lia.
    apply (grp_lanes 8 R G); auto.
    intros g k Hg Hk. rewrite lane_msk by auto. unfold splat. rewrite Ew. rewrite lane_pack_sub; try lia.
    - assert (0 < G / m) by auto.
      assert ((G * g + k) mod m = k mod m) as ->.
      { assert (G = (G / m) * m) as EG.
        { assert (G mod (m * (G / m)) = 0) as HGG by auto.
          apply Z.mod_divide in HGG; [|nia]. destruct HGG as [x Hx]. 
          assert (x = 1) by (pose proof (Z.div_mod G m); pose proof (Z.mod_pos_bound G m); nia). nia. }
        rewrite EG. replace (G / m * m * g + k) with (k + (G / m * g) * m) by ring. apply Z.mod_add. lia. }
      unfold ffb. replace (8 * m / 8) with m by (rewrite Z.mul_comm, Z.div_mul; lia).
      pose proof (Z.mod_pos_bound k m ltac:(lia)) as HB.
      pose proof (forallb_zrange _ _ HF (k mod m) HB) as HK. cbn in HK.
      rewrite orb_true_iff, !Z.eqb_eq in HK.
      destruct HK as [-> | ->]; reflexivity.
    - rewrite <- Ew. auto.
    - rewrite E2. nia.
  Qed.
  Lemma Sel_land_r cc w c x M : Sel cc R G x env M ->
    Sel (cc && bytemask w c && okb w R (G / (w / 8)) G) R G (Z.land x (splat w R c)) env
      (fun k => if ffb w c k then M k else None).
  Proof.
    intros Hx HC. rewrite !andb_true_iff in HC. destruct HC as ((Hc & Hb) & Ho).
    destruct (Hx Hc) as (HG & ->). split; auto. rewrite splat_msk by auto. apply land_lsh; auto.
  Qed.
  Lemma Sel_ldiff_r cc w c x M : Sel cc R G x env M ->
    Sel (cc && bytemask w c && okb w R (G / (w / 8)) G) R G (Z.ldiff x (splat w R c)) env
      (fun k => if ffb w c k then None else M k).
  Proof.
    intros Hx HC. rewrite !andb_true_iff in HC. destruct HC as ((Hc & Hb) & Ho).
    destruct (Hx Hc) as (HG & ->). split; auto. rewrite splat_msk by auto. apply ldiff_lsh; auto.
  Qed.

  (** what is wanted: a selection of lanes *)
  Lemma Sel_goal c w n L e M : Sel c R G e env M ->
    c && okb w R n G && in_range n L &&
      forallb (fun k => src_eqb (M k) (byt (w / 8) n L k)) (zrange G) = true ->
    e = lsh w R n L env.
  Proof.
    intros He HC. rewrite !andb_true_iff in HC. destruct HC as (((Hc & Ho) & HI) & HE).
    destruct (He Hc) as (HG & ->). rewrite (byt_lsh w R n G) by auto. apply lsh_extb; auto.
  Qed.
End S.
