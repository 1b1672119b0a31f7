(** Byte provenance of the shuffle instructions that are not given as lane selections,
    and the tactics. *)
From Verif Require Export Proof.Sel.

(** a register given by its bytes *)
Lemma Sel_bytes R G c env e M : (c = true -> gok 8 R G = true) ->
  (c = true -> reg R e) ->
  (c = true -> forall g k, 0 <= g < R / (G * 8) -> 0 <= k < G -> lane 8 (G * g + k) e =
     match M k with None => 0 | Some (m, j) => lane 8 (G * g + j) (nth m env 0) end) ->
  Sel c R G e env M.
Proof. intros H1 H2 H3 Hc. split; auto. apply eq_lsh; auto. Qed.

(** lanes of registers of known provenance *)
Lemma Sel_lane8 R G c e env M g k : Sel c R G e env M -> c = true -> 0 <= g < R / (G * 8) -> 0 <= k < G ->
  lane 8 (G * g + k) e = match M k with None => 0 | Some (m, j) => lane 8 (G * g + j) (nth m env 0) end.
Proof. intros HS Hc Hg Hk. destruct (HS Hc) as (HG & ->). apply lane_lsh; auto. Qed.

(** pack of whole lanes *)
Lemma pack_lsh w R f L env : wok w R = true ->
  (forall i, 0 <= i < R / w -> wrap w (f i) = match L i with None => 0 | Some (m, j) => lane w j (nth m env 0) end) ->
  pack w R f = lsh w R (R / w) L env.
Proof.
  intros H HF. destruct (wok_spec _ _ H) as (Hw & HR & E & En).
  apply (reg_lanes w R); auto. intros i Hi. rewrite lane_pack by auto. rewrite HF by auto.
  unfold lsh. rewrite lane_pack by auto. rewrite (Z.mod_small i), (Z.div_small i), Z.mul_0_r by lia.
  destruct (L i) as [[m j]|].
  - rewrite Z.add_0_l, wrap_lane. reflexivity.
  - rewrite wrap_small; auto. pose proof (pow2_pos w). lia.
Qed.
Lemma shuffle_pd_lsh R imm a b : wok 64 R = true ->
  mm_shuffle_pd R imm a b =
  lsh 64 R (R / 64) (fun i => let j := 2 * (i / 2) + Z.b2z (Z.testbit imm i) in
                              if Z.even i then fromA j else fromB j) [a; b].
Proof.
  intros. apply pack_lsh; auto. intros. rewrite wrap_lane. cbv zeta. destruct (Z.even i); reflexivity.
Qed.
Lemma blend_lsh w R imm a b : wok w R = true ->
  mm_blend w R imm a b = lsh w R (R / w) (fun i => if Z.testbit imm i then fromB i else fromA i) [a; b].
Proof. intros. apply pack_lsh; auto. intros. rewrite wrap_if, !wrap_lane. destruct (Z.testbit imm i); reflexivity. Qed.
Lemma maskz_lsh w R k a : wok w R = true ->
  mm_maskz w R k a = lsh w R (R / w) (fun i => if Z.testbit k i then fromA i else zlane) [a].
Proof.
  intros H. destruct (wok_spec _ _ H) as (Hw & _). apply pack_lsh; auto. intros. rewrite wrap_if, wrap_lane.
  destruct (Z.testbit k i); [reflexivity|]. apply wrap_small. pose proof (pow2_pos w). lia.
Qed.
Lemma maskm_lsh w R s k a : wok w R = true ->
  mm_maskm w R s k a = lsh w R (R / w) (fun i => if Z.testbit k i then fromA i else fromB i) [a; s].
Proof. intros. apply pack_lsh; auto. intros. rewrite wrap_if, !wrap_lane. destruct (Z.testbit k i); reflexivity. Qed.
Lemma splat_lane_lsh w R j a : wok w R = true ->
  splat w R (lane w j a) = lsh w R (R / w) (fun i => fromA j) [a].
Proof. intros. apply pack_lsh; auto. intros. apply wrap_lane. Qed.
Lemma alignr_w_lsh w R sh a b : wok w R = true ->
  mm_alignr_w w R sh a b =
  lsh w R (R / w) (fun k => if k + sh <? R / w then fromB (k + sh) else fromA (k + sh - R / w)) [a; b].
Proof. intros. apply pack_lsh; auto. intros. rewrite wrap_if, !wrap_lane. destruct (i + sh <? R / w); reflexivity. Qed.
(** constant index registers *)
Lemma permutexvar_lsh w R f a : wok w R = true ->
  mm_permutexvar w R (pack w R f) a = lsh w R (R / w) (fun i => fromA (wrap w (f i) mod (R / w))) [a].
Proof. intros. apply pack_lsh; auto. intros. rewrite wrap_lane, lane_pack by auto. reflexivity. Qed.
Lemma permutex2var_lsh w R f a b : wok w R = true ->
  mm_permutex2var w R a (pack w R f) b =
  lsh w R (R / w) (fun i => let j := wrap w (f i) mod (2 * (R / w)) in
                            if j <? R / w then fromA j else fromB (j - R / w)) [a; b].
Proof.
  intros. apply pack_lsh; auto. intros. cbv zeta. rewrite lane_pack by auto. rewrite wrap_if, !wrap_lane.
  destruct (_ <? _); reflexivity.
Qed.

(** halves and their combination *)
Section Halves.
  Variables (env : list Z).
  Lemma Sel_part R H i c e M : Sel c R (R / 8) e env M ->
    Sel (c && (0 <? H) && (0 <=? i) && ((i + 1) * H <=? R) && (H mod 8 =? 0) && (R mod 8 =? 0)) H (H / 8) (lane H i e) env (fun k => M (H / 8 * i + k)).
  Proof.
    intros HS HC. rewrite !andb_true_iff, Z.ltb_lt, !Z.leb_le, !Z.eqb_eq in HC.
    destruct HC as (((((Hc & HH) & Hi) & HR) & H8) & HR8).
    assert (H = 8 * (H / 8)) as EH by (rewrite (Z.div_mod H 8) at 1; lia).
    assert (R = 8 * (R / 8)) as ER by (rewrite (Z.div_mod R 8) at 1; lia).
    set (h := H / 8) in *. assert (0 < h) by lia.
    assert (gok 8 H h = true) as HG.
    { unfold gok, wok. rewrite !andb_true_iff, !Z.ltb_lt, !Z.eqb_eq. repeat split; try lia.
      rewrite EH, Z.mul_comm. apply Z.mod_same. lia. }
    split; auto. apply eq_lsh; auto. { split; apply lane_range; lia. }
    intros g k Hg Hk. assert (H / (h * 8) = 1) as EG.
    { rewrite EH. rewrite Z.mul_comm. apply Z.div_same. lia. }
    rewrite EG in Hg. assert (g = 0) as -> by lia. rewrite Z.mul_0_r, Z.add_0_l.
    assert (lane 8 k (lane H i e) = lane 8 (R / 8 * 0 + (h * i + k)) e) as ->.
    { rewrite Z.mul_0_r, Z.add_0_l. rewrite EH at 1.
      rewrite (lane_sub 8 h (h * i + k)) by nia.
      rewrite (grp_div h i k), (grp_mod h i k) by lia. reflexivity. }
    rewrite (Sel_lane8 _ _ _ _ _ _ _ _ HS Hc); [rewrite Z.mul_0_r; reflexivity| |nia].
    rewrite ER. replace (8 * (R / 8) / 8 * 8) with (8 * (R / 8)).
    - rewrite Z.div_same by nia. lia.
    - rewrite (Z.mul_comm 8 (R / 8)), Z.div_mul by lia. ring.
  Qed.
  Lemma Sel_cat H c d lo hi M N : Sel c H (H / 8) lo env M -> Sel d H (H / 8) hi env N ->
    Sel (c && d && (0 <? H) && (H mod 8 =? 0)) (2 * H) (2 * H / 8) (pack H (2 * H) (fun i => if i =? 0 then lo else hi)) env
      (fun k => if k <? H / 8 then M k else N (k - H / 8)).
  Proof.
    intros HM HN HC. rewrite !andb_true_iff, Z.ltb_lt, !Z.eqb_eq in HC.
    destruct HC as (((Hc & Hd) & HH) & H8).
    assert (H = 8 * (H / 8)) as EH by (rewrite (Z.div_mod H 8) at 1; lia).
    set (h := H / 8) in *. assert (0 < h) by lia.
    assert (2 * H / 8 = 2 * h) as E2 by (rewrite EH; replace (2 * (8 * h)) with (2 * h * 8) by ring; apply Z.div_mul; lia).
    assert (gok 8 (2 * H) (2 * h) = true) as HG.
    { unfold gok, wok. rewrite !andb_true_iff, !Z.ltb_lt, !Z.eqb_eq. repeat split; try lia.
      - rewrite EH. replace (2 * (8 * h)) with (2 * h * 8) by ring. apply Z.mod_mul. lia.
      - rewrite EH. replace (2 * (8 * h)) with (1 * (2 * h * 8)) by ring. apply Z.mod_mul. lia. }
    rewrite E2. split; auto.
    assert (wok H (2 * H) = true) as HW.
    { unfold wok. rewrite !andb_true_iff, !Z.ltb_lt, !Z.eqb_eq. repeat split; try lia. apply Z.mod_mul. lia. }
    assert (2 * H / H = 2) as EQ by (apply Z.div_mul; lia).
    apply eq_lsh; auto. intros g k Hg Hk.
    assert (2 * H / (2 * h * 8) = 1) as EG.
    { rewrite EH. replace (2 * (8 * h)) with (2 * h * 8) by ring. apply Z.div_same. lia. }
    rewrite EG in Hg. assert (g = 0) as -> by lia. rewrite Z.mul_0_r, Z.add_0_l.
    assert (H28 : 2 * H / 8 = 2 * h) by auto.
    pose proof (lane_pack_sub 8 h (2 * H) (fun i => if i =? 0 then lo else hi) k ltac:(lia) ltac:(lia)
      ltac:(rewrite <- EH; auto) ltac:(lia)) as HP. rewrite <- EH in HP. rewrite HP. clear HP. cbv beta.
    assert (HX : H / (h * 8) = 1) by (rewrite EH, Z.mul_comm; apply Z.div_same; lia).
    destruct (Z.ltb_spec k h).
    - rewrite Z.div_small, Z.mod_small by lia. cbn [Z.eqb].
      pose proof (Sel_lane8 _ _ _ _ _ _ 0 k HM Hc ltac:(rewrite HX; lia) ltac:(lia)) as HL.
      rewrite Z.mul_0_r, !Z.add_0_l in HL. rewrite HL. destruct (M k) as [[m j]|]; reflexivity.
    - assert (k = h * 1 + (k - h)) as EK by lia. rewrite EK at 1 2. rewrite grp_div, grp_mod by lia. cbn [Z.eqb].
      pose proof (Sel_lane8 _ _ _ _ _ _ 0 (k - h) HN Hd ltac:(rewrite HX; lia) ltac:(lia)) as HL.
      rewrite Z.mul_0_r, !Z.add_0_l in HL. rewrite HL. destruct (N (k - h)) as [[m j]|]; reflexivity.
  Qed.
End Halves.
Lemma Sel_vget_low env c e M : Sel c 128 16 e env M -> Sel c 64 8 (vget_low e) env (fun k => M k).
Proof. intros H Hc. apply (Sel_part env 128 64 0 c e M H). rewrite Hc. reflexivity. Qed.
Lemma Sel_vget_high env c e M : Sel c 128 16 e env M -> Sel c 64 8 (vget_high e) env (fun k => M (8 + k)).
Proof. intros H Hc. apply (Sel_part env 128 64 1 c e M H). rewrite Hc. reflexivity. Qed.
Lemma Sel_vcombine env c d lo hi M N : Sel c 64 8 lo env M -> Sel d 64 8 hi env N ->
  Sel (c && d) 128 16 (vcombine lo hi) env (fun k => if k <? 8 then M k else N (k - 8)).
Proof. intros HM HN Hc. apply (Sel_cat env 64 c d lo hi M N HM HN). rewrite Hc. reflexivity. Qed.
Lemma Sel_extract128 env i c e M : 0 <= i < 2 -> Sel c 256 32 e env M ->
  Sel c 128 16 (mm_extract128 i e) env (fun k => M (16 * i + k)).
Proof.
  intros Hi H Hc. apply (Sel_part env 256 128 i c e M H). rewrite Hc. case_small i; reflexivity.
Qed.
Lemma Sel_combine128 env c d lo hi M N : Sel c 128 16 lo env M -> Sel d 128 16 hi env N ->
  Sel (c && d) 256 32 (mm_combine128 lo hi) env (fun k => if k <? 16 then M k else N (k - 16)).
Proof. intros HM HN Hc. apply (Sel_cat env 128 c d lo hi M N HM HN). rewrite Hc. reflexivity. Qed.

(** logical shifts by whole bytes *)
Section Shifts.
  Variables (R G : Z) (env : list Z).
  Definition bsh (w c : Z) : bool := (c mod 8 =? 0) && (0 <=? c) && (c <? w).
  Lemma lane8_of_lane w m i k x : w = 8 * m -> 0 < m -> 0 <= i -> 0 <= k < m ->
    lane 8 k (lane w i x) = lane 8 (m * i + k) x.
  Proof.
    intros -> Hm Hi Hk. symmetry.
    rewrite (lane_sub 8 m (m * i + k)) by nia. rewrite grp_div, grp_mod by lia. reflexivity.
  Qed.
  Lemma lane8_v1 w f x g k m : w = 8 * m -> 0 < m -> gok 8 R G = true -> gok w R (G / m) = true -> G mod m = 0 ->
    0 <= g < R / (G * 8) -> 0 <= k < G ->
    lane 8 (G * g + k) (v1 w R f x) = lane 8 (k mod m) (f (lane w (G / m * g + k / m) x)).
  Proof.
    intros Ew Hm H8 Hw HG Hg Hk.
    destruct (gok_spec _ _ _ Hw) as (Hwk & Hp & HR & Hn & E & E2).
    destruct (gok_spec _ _ _ H8) as (Hwk8 & _ & _ & HnG & E' & E2').
    assert (G = m * (G / m)) as EG by (rewrite (Z.div_mod G m) at 1; lia).
    set (q := G / m) in *.
    unfold v1. rewrite Ew at 1. rewrite lane_pack_sub; try lia.
    - assert ((G * g + k) mod m = k mod m) as ->.
      { rewrite EG. replace (m * q * g + k) with (k + (q * g) * m) by ring. apply Z.mod_add. lia. }
      assert ((G * g + k) / m = q * g + k / m) as ->.
      { rewrite EG. replace (m * q * g + k) with ((q * g) * m + k) by ring. apply Z.div_add_l. lia. }
      reflexivity.
    - rewrite <- Ew; auto.
    - rewrite E2'. nia.
  Qed.
  Lemma lane8_shiftl m c x k : 0 < m -> 0 <= c -> 0 <= k < m ->
    lane 8 k (Z.shiftl x (8 * c)) = if k <? c then 0 else lane 8 (k - c) x.
  Proof.
    intros Hm Hc Hk. apply (bits_ext 8); try lia; [apply lane_range; lia| |].
    { destruct (k <? c); [lia|apply lane_range; lia]. }
    intros b Hb. rewrite testbit_lane by lia. destruct (Z.ltb_spec b 8); [|lia]. cbn [andb].
    rewrite Z.shiftl_spec by lia. destruct (Z.ltb_spec k c).
    - rewrite Z.bits_0. apply Z.testbit_neg_r. lia.
    - rewrite testbit_lane by lia. destruct (Z.ltb_spec b 8); [|lia]. cbn [andb]. f_equal. lia.
  Qed.
  Lemma lane8_shiftr m c x k : 0 < m -> 0 <= c -> 0 <= k -> 0 <= x < 2 ^ (8 * m) ->
    lane 8 k (Z.shiftr x (8 * c)) = if k + c <? m then lane 8 (k + c) x else 0.
  Proof.
    intros Hm Hc Hk Hx. apply (bits_ext 8); try lia; [apply lane_range; lia| |].
    { destruct (_ <? _); [apply lane_range; lia|lia]. }
    intros b Hb. rewrite testbit_lane by lia. destruct (Z.ltb_spec b 8); [|lia]. cbn [andb].
    rewrite Z.shiftr_spec by lia. destruct (Z.ltb_spec (k + c) m).
    - rewrite testbit_lane by lia. destruct (Z.ltb_spec b 8); [|lia]. cbn [andb]. f_equal. lia.
    - rewrite Z.bits_0. apply (testbit_high (8 * m)); lia.
  Qed.

  Lemma Sel_shl cc w c x M (f : Z -> Z) : Sel cc R G x env M ->
    (bsh w c = true -> forall y, f y = Z.shiftl y c) ->
    Sel (cc && bsh w c && okb w R (G / (w / 8)) G) R G (v1 w R f x) env
      (fun k => if k mod (w / 8) <? c / 8 then None else M (k - c / 8)).
  Proof.
    intros HS Hf HC. rewrite !andb_true_iff in HC. destruct HC as ((Hc & Hb) & Ho).
    specialize (Hf Hb). unfold bsh in Hb. rewrite !andb_true_iff, Z.eqb_eq, Z.leb_le, Z.ltb_lt in Hb.
    destruct Hb as ((Hc8 & Hc0) & Hcw).
    unfold okb in Ho. rewrite !andb_true_iff, !Z.ltb_lt, !Z.eqb_eq in Ho.
    destruct Ho as ((((((Hw & Hw8) & Hn) & HG) & HG0) & H1) & H2).
    destruct (HS Hc) as (_ & Ex).
    set (m := w / 8) in *. assert (w = 8 * m) as Ew by (subst m; rewrite (Z.div_mod w 8) at 1; lia).
    assert (0 < m) by lia. assert (c = 8 * (c / 8)) as Ec by (rewrite (Z.div_mod c 8) at 1; lia).
    set (j := c / 8) in *.
    destruct (gok_spec _ _ _ H1) as (Hwk & _).
    destruct (gok_spec _ _ _ H2) as (Hwk8 & _ & _ & _ & E & E2).
    assert (G mod m = 0) as HGm.
    { apply Z.mod_divide in HG; [|nia]. destruct HG as [z Hz]. rewrite Hz. 
      replace (z * (m * (G / m))) with (z * (G / m) * m) by ring. apply Z.mod_mul. lia. }
    assert (G = m * (G / m)) as EG by (rewrite (Z.div_mod G m) at 1; lia).
    split; auto. apply eq_lsh; auto. intros g k Hg Hk.
    rewrite (lane8_v1 w f x g k m) by auto. rewrite Hf, Ec.
    pose proof (Z.mod_pos_bound k m ltac:(lia)). pose proof (Z.div_mod k m ltac:(lia)).
    assert (0 <= k / m) by (apply Z.div_pos; lia).
    rewrite (lane8_shiftl m) by lia.
    destruct (Z.ltb_spec (k mod m) j); auto.
    rewrite (lane8_of_lane w m) by nia.
    replace (m * (G / m * g + k / m) + (k mod m - j)) with (G * g + (k - j)) by nia.
    apply (Sel_lane8 _ _ _ _ _ _ _ _ HS Hc); auto. nia.
  Qed.
  Lemma Sel_shr cc w c x M (f : Z -> Z) : Sel cc R G x env M ->
    (bsh w c = true -> forall y, f y = Z.shiftr y c) ->
    Sel (cc && bsh w c && okb w R (G / (w / 8)) G) R G (v1 w R f x) env
      (fun k => if k mod (w / 8) + c / 8 <? w / 8 then M (k + c / 8) else None).
  Proof.
    intros HS Hf HC. rewrite !andb_true_iff in HC. destruct HC as ((Hc & Hb) & Ho).
    specialize (Hf Hb). unfold bsh in Hb. rewrite !andb_true_iff, Z.eqb_eq, Z.leb_le, Z.ltb_lt in Hb.
    destruct Hb as ((Hc8 & Hc0) & Hcw).
    unfold okb in Ho. rewrite !andb_true_iff, !Z.ltb_lt, !Z.eqb_eq in Ho.
    destruct Ho as ((((((Hw & Hw8) & Hn) & HG) & HG0) & H1) & H2).
    destruct (HS Hc) as (_ & Ex).
    set (m := w / 8) in *. assert (w = 8 * m) as Ew by (subst m; rewrite (Z.div_mod w 8) at 1; lia).
    assert (0 < m) by lia. assert (c = 8 * (c / 8)) as Ec by (rewrite (Z.div_mod c 8) at 1; lia).
    set (j := c / 8) in *.
    destruct (gok_spec _ _ _ H1) as (Hwk & _).
    destruct (gok_spec _ _ _ H2) as (Hwk8 & _ & _ & _ & E & E2).
    assert (G mod m = 0) as HGm.
    { apply Z.mod_divide in HG; [|nia]. destruct HG as [z Hz]. rewrite Hz. 
      replace (z * (m * (G / m))) with (z * (G / m) * m) by ring. apply Z.mod_mul. lia. }
    assert (G = m * (G / m)) as EG by (rewrite (Z.div_mod G m) at 1; lia).
    split; auto. apply eq_lsh; auto. intros g k Hg Hk.
    rewrite (lane8_v1 w f x g k m) by auto. rewrite Hf, Ec.
    pose proof (Z.mod_pos_bound k m ltac:(lia)). pose proof (Z.div_mod k m ltac:(lia)).
    assert (0 <= k / m) by (apply Z.div_pos; lia).
    assert (k / m < G / m) by (apply Z.div_lt_upper_bound; lia).
    rewrite (lane8_shiftr m) by (try apply lane_range; try rewrite Ew; try apply lane_range; lia).
    destruct (Z.ltb_spec (k mod m + j) m); auto.
    rewrite (lane8_of_lane w m) by nia.
    replace (m * (G / m * g + k / m) + (k mod m + j)) with (G * g + (k + j)) by nia.
    apply (Sel_lane8 _ _ _ _ _ _ _ _ HS Hc); auto. nia.
  Qed.
  Lemma Sel_mm_sll cc w c x M : Sel cc R G x env M ->
    Sel (cc && bsh w c && okb w R (G / (w / 8)) G) R G (mm_sll w R x c) env
      (fun k => if k mod (w / 8) <? c / 8 then None else M (k - c / 8)).
  Proof.
    intros H. apply Sel_shl; auto. intros Hb y. unfold bsh in Hb. rewrite !andb_true_iff in Hb.
    destruct Hb as [_ ->]. reflexivity.
  Qed.
  Lemma Sel_mm_srl cc w c x M : Sel cc R G x env M ->
    Sel (cc && bsh w c && okb w R (G / (w / 8)) G) R G (mm_srl w R x c) env
      (fun k => if k mod (w / 8) + c / 8 <? w / 8 then M (k + c / 8) else None).
  Proof.
    intros H. apply Sel_shr; auto. intros Hb y. unfold bsh in Hb. rewrite !andb_true_iff in Hb.
    destruct Hb as [_ ->]. reflexivity.
  Qed.
End Shifts.
