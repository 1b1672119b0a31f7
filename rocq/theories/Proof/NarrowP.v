(** Narrowing conversions: one result register from its source registers. *)
From Verif Require Export Proof.ConvertP Proof.UnzipP Proof.MulP Proof.Shuf64P Model.Narrow.

(** [r], R' bits: lane i is the low part of lane i of the registers [va], R bits each *)
Definition narrowed (w w' R R' : Z) (va : vec) (r : Z) : Prop :=
  reg R' r /\ forall i, 0 <= i < R' / w' ->
    lane w' i r = wrap w' (lane w (i mod (R / w)) (nth (Z.to_nat (i / (R / w))) va 0)).
Definition npair (w w' : Z) : Prop := wpair w' w.

(** pure selections of bytes *)
Definition ncheck (w w' R R' : Z) (M : Z -> src) : bool :=
  (8 <=? w') && (w' <=? w) && (w mod 8 =? 0) && (w' mod 8 =? 0) && (R' mod w' =? 0) && (R mod w =? 0) && (0 <? R) && (w <=? R) && (0 <? R') &&
  forallb (fun b => src_eqb (M b)
    (let i := b / (w' / 8) in Some (Z.to_nat (i / (R / w)), w / 8 * (i mod (R / w)) + b mod (w' / 8)))) (zrange (R' / 8)).
Lemma lane8_test m i r k : 0 < m -> 0 <= i -> 0 <= k < 8 * m ->
  Z.testbit (lane (8 * m) i r) k = Z.testbit (lane 8 (m * i + k / 8) r) (k mod 8).
Proof.
  intros Hm Hi Hk. pose proof (Z.mod_pos_bound k 8 ltac:(lia)). pose proof (Z.div_pos k 8 ltac:(lia) ltac:(lia)).
  assert (0 <= m * i) by nia.
  rewrite !testbit_lane by lia.
  replace (k <? 8 * m) with true by (symmetry; apply Z.ltb_lt; lia).
  replace (k mod 8 <? 8) with true by (symmetry; apply Z.ltb_lt; lia).
  cbn [andb]. f_equal. pose proof (Z.div_mod k 8 ltac:(lia)). lia.
Qed.
Lemma narrowed_sel w w' R R' va r M c : Sel c R' (R' / 8) r va M -> c && ncheck w w' R R' M = true ->
  narrowed w w' R R' va r.
Proof.
  intros HS HC. apply andb_true_iff in HC. destruct HC as [Hc HC]. destruct (HS Hc) as [HG ->]. clear HS Hc.
  unfold ncheck in HC. rewrite !andb_true_iff, !Z.leb_le, !Z.eqb_eq, !Z.ltb_lt in HC.
  destruct HC as (((((((((H8 & Hw) & Hm) & Hm') & HR') & HRw) & HR) & HwR) & HR0) & HF).
  destruct (gok_spec _ _ _ HG) as [].
  split; [apply lsh_reg; assumption|]. intros i Hi.
  assert (R' mod 8 = 0) as HR8.
  { apply Z.mod_divide in HR', Hm'; try lia. apply Z.mod_divide; [lia|]. eapply Z.divide_trans; eassumption. }
  pose proof (Z.div_exact R' 8 ltac:(lia)) as [_ ER8]. specialize (ER8 HR8).
  pose proof (Z.div_exact R' w' ltac:(lia)) as [_ ERw]. specialize (ERw HR').
  pose proof (Z.div_exact w' 8 ltac:(lia)) as [_ Ew']. specialize (Ew' Hm').
  pose proof (Z.div_exact w 8 ltac:(lia)) as [_ Ew]. specialize (Ew Hm).
  set (m' := w' / 8) in *. set (m := w / 8) in *.
  assert (0 < m') by lia. assert (0 < m) by lia.
  assert (0 < R / w) as Hn by (apply Z.div_str_pos; lia).
  set (n := R / w) in *.
  pose proof (Z.mod_pos_bound i n Hn).
  pose proof (Z.div_pos i n ltac:(lia) ltac:(lia)).
  apply (bits_ext w'); [lia|apply lane_range; lia|apply wrap_range; lia|].
  intros k Hk. rewrite testbit_wrap by lia. replace (k <? w') with true by (symmetry; apply Z.ltb_lt; lia). cbn [andb].
  rewrite Ew' at 1. rewrite lane8_test by lia.
  rewrite Ew. rewrite lane8_test by lia.
  pose proof (Z.div_pos k 8 ltac:(lia) ltac:(lia)).
  assert (k / 8 < m') as Hk8 by (apply Z.div_lt_upper_bound; lia).
  set (b := m' * i + k / 8).
  assert (0 <= b < R' / 8) as Hb.
  { unfold b. split; [nia|]. rewrite ERw in ER8. assert (R' / 8 = m' * (R' / w')) by (rewrite Ew' in ER8 at 1; nia). nia. }
  assert (b / m' = i) as Eb1 by (unfold b; apply grp_div; lia).
  assert (b mod m' = k / 8) as Eb2 by (unfold b; apply grp_mod; lia).
  pose proof (forallb_zrange _ _ HF b Hb) as HE. cbv beta zeta in HE. apply src_eqb_eq in HE. rewrite Eb1, Eb2 in HE.
  f_equal. replace b with (R' / 8 * 0 + b) at 1 by lia. rewrite lane_lsh; [|assumption|lia|].
  2:{ replace (R' / (R' / 8 * 8)) with 1; [lia|]. symmetry. replace (R' / 8 * 8) with R' by lia. apply Z.div_same. lia. }
  rewrite HE. f_equal. lia.
Qed.
Lemma narrowed_trunc w v R R' a : wok v R' = true -> R / w = R' / v -> narrowed w v R R' [a] (mm_trunc w v R R' a).
Proof.
  intros HW E. split; [apply pack_reg; assumption|]. intros i Hi. unfold mm_trunc. rewrite lane_pack by assumption.
  rewrite E. rewrite (Z.div_small i), (Z.mod_small i) by lia. replace (i <? R' / v) with true by (symmetry; apply Z.ltb_lt; lia).
  reflexivity.
Qed.
(** two halves *)
Lemma narrowed_cat w w' R H va vb a b : wok w' H = true -> wok H (2 * H) = true -> wok w' (2 * H) = true -> 0 < R / w ->
  Z.of_nat (length va) * (R / w) = H / w' ->
  narrowed w w' R H va a -> narrowed w w' R H vb b ->
  narrowed w w' R (2 * H) (va ++ vb) (pack H (2 * H) (fun i => if i =? 0 then a else b)).
Proof.
  intros HW1 HW2 HW3 Hn HL [Ra HA] [Rb HB].
  destruct (wok_spec _ _ HW1) as (Hw & HH & EH & _).
  split; [apply pack_reg; assumption|]. intros i Hi.
  set (h := H / w') in *. assert (0 < h) as Hh by nia.
  assert (2 * H / w' = 2 * h) as E2 by (rewrite EH; replace (2 * (w' * h)) with (2 * h * w') by ring; apply Z.div_mul; lia).
  rewrite E2 in Hi.
  rewrite EH at 1 2. rewrite (lane_sub w' h i) by lia.
  assert (i / h = 0 \/ i / h = 1) as Hq by (pose proof (Z.div_lt_upper_bound i h 2 ltac:(lia) ltac:(lia)); pose proof (Z.div_pos i h ltac:(lia) ltac:(lia)); lia).
  pose proof (Z.div_mod i h ltac:(lia)) as Di. pose proof (Z.mod_pos_bound i h ltac:(lia)) as Mi.
  rewrite <- EH. rewrite lane_pack; [|assumption|rewrite Z.div_mul by lia; lia].
  set (n := R / w) in *.
  destruct Hq as [Hq|Hq]; rewrite Hq in *; cbn [Z.eqb Pos.eqb].
  - rewrite (wrap_small H) by (apply Ra). replace (i mod h) with i by lia. rewrite HA by lia. do 2 f_equal.
    symmetry. apply app_nth1.
    pose proof (Z.div_lt_upper_bound i n (Z.of_nat (length va)) ltac:(lia) ltac:(lia)). pose proof (Z.div_pos i n ltac:(lia) ltac:(lia)). lia.
  - rewrite (wrap_small H) by (apply Rb). rewrite HB by lia.
    replace i with (i mod h + Z.of_nat (length va) * n) at 3 4 by lia.
    rewrite Z_mod_plus_full, Z_div_plus_full by lia.
    pose proof (Z.div_pos (i mod h) n ltac:(lia) ltac:(lia)).
    do 2 f_equal. rewrite app_nth2 by lia. f_equal. lia.
Qed.
(** two conversions in sequence: block j of the source gives register j between *)
Lemma narrowed_comp w w1 w2 R R1 R2 (k : nat) (vs : list vec) (xs : vec) r :
  0 < w2 -> w2 <= w1 -> w1 <= w -> 0 < R / w -> (0 < k)%nat -> R1 / w1 = Z.of_nat k * (R / w) ->
  Forall (fun v => length v = k) vs -> R2 / w2 = Z.of_nat (length vs) * (R1 / w1) ->
  Forall2 (narrowed w w1 R R1) vs xs -> narrowed w1 w2 R1 R2 xs r -> narrowed w w2 R R2 (concat vs) r.
Proof.
  intros Hw2 Hw21 Hw1 Hn Hk E1 HL E2 HF [Rr Hr]. split; [assumption|]. intros i Hi. rewrite Hr by assumption. clear Hr Rr.
  set (n := R / w) in *. set (n1 := R1 / w1) in *.
  assert (0 < n1) by nia.
  pose proof (Z.mod_pos_bound i n1 ltac:(lia)). pose proof (Z.div_pos i n1 ltac:(lia) ltac:(lia)).
  pose proof (Z.div_lt_upper_bound i n1 (Z.of_nat (length vs)) ltac:(lia) ltac:(lia)).
  set (q := i / n1) in *. set (m := i mod n1) in *.
  assert (i = n1 * q + m) as Di by (unfold q, m; apply Z.div_mod; lia).
  assert (narrowed w w1 R R1 (nth (Z.to_nat q) vs []) (nth (Z.to_nat q) xs 0)) as [_ HB].
  { assert ((Z.to_nat q < length vs)%nat) as Hq by lia. clear -HF Hq. generalize dependent (Z.to_nat q). intros j Hq. clear q.
    revert j Hq. induction HF; intros j Hj; [cbn in Hj; lia|]. destruct j; cbn; auto. apply IHHF. cbn in Hj. lia. }
  rewrite HB by assumption. fold n.
  assert (wrap w2 (wrap w1 (lane w (m mod n) (nth (Z.to_nat (m / n)) (nth (Z.to_nat q) vs []) 0))) =
          wrap w2 (lane w (m mod n) (nth (Z.to_nat (m / n)) (nth (Z.to_nat q) vs []) 0))) as ->.
  { apply (bits_ext w2); [lia|apply wrap_range; lia..|]. intros j Hj. rewrite !testbit_wrap by lia.
    replace (j <? w1) with true by (symmetry; apply Z.ltb_lt; lia). rewrite andb_true_l. reflexivity. }
  f_equal. rewrite Di, E1.
  replace (Z.of_nat k * n * q + m) with (m + (Z.of_nat k * q) * n) by ring.
  rewrite Z_mod_plus_full, Z_div_plus_full by lia. f_equal.
  pose proof (Z.div_pos m n ltac:(lia) ltac:(lia)).
  pose proof (Z.div_lt_upper_bound m n (Z.of_nat k) ltac:(lia) ltac:(lia)).
  replace (Z.to_nat (m / n + Z.of_nat k * q)) with (k * Z.to_nat q + Z.to_nat (m / n))%nat by nia.
  assert ((Z.to_nat (m / n) < k)%nat) as Hj by lia.
  revert HL Hj. clear. generalize (Z.to_nat (m / n)) as t. generalize (Z.to_nat q) as j. intros j t HL Hj.
  revert j. induction HL as [|v vs Hv HL IH]; intros j.
  { assert (forall x, nth x (@nil Z) 0 = 0) as N0 by (destruct x; reflexivity).
    cbn [concat]. rewrite !N0. destruct j, t; reflexivity. }
  destruct j; cbn [nth concat].
  - rewrite Nat.mul_0_r. symmetry. apply app_nth1. lia.
  - rewrite app_nth2 by nia. rewrite IH. f_equal. nia.
Qed.
(** the other instructions *)
Lemma narrowed_null w w' va : npair w w' ->
  exists r, null_narrow w w' va = Ok r /\ narrowed w w' 128 128 va r.
Proof.
  intros HP. unfold null_narrow, nloop. erewrite mkM_ok by (intros; reflexivity). eexists; split; [reflexivity|].
  assert (wok w' 128 = true) as HW by (destruct HP as [[-> _] | [[-> _] | [-> _]]]; reflexivity).
  destruct (wok_spec _ _ HW) as (H0 & _).
  cbn [snd ty]. split.
  - apply (pack_reg w' 128). assumption.
  - intros i Hi. fold (pack w' 128). change (mk w' (nl w' 128)) with (pack w' 128). rewrite lane_pack by assumption.
    unfold sto, ccast, el, cconv. cbn [fst snd ty]. rewrite !wrap_wrap. rewrite ?wrap_lane. reflexivity.
Qed.

Lemma narrowed_vmovn w a b : wok w 64 = true -> wok w 128 = true -> wok w 128 = true -> 128 / (2 * w) = 64 / w ->
  narrowed (2 * w) w 128 128 [a; b] (vcombine (vmovn w a) (vmovn w b)).
Proof.
  intros HW HW2 _ E. destruct (wok_spec _ _ HW) as (H0 & _ & H1 & _).
  assert (forall a, narrowed (2 * w) w 128 64 [a] (vmovn w a)) as HM.
  { intros x. split; [apply pack_reg; assumption|]. intros i Hi. unfold vmovn. rewrite lane_pack by assumption.
    rewrite E, (Z.div_small i), (Z.mod_small i) by lia. reflexivity. }
  apply (narrowed_cat (2 * w) w 128 64 [a] [b]); try reflexivity; auto; [rewrite E; nia|cbn [length]; lia].
Qed.
Lemma narrowed_vec_pack w a b : wok w 64 = true -> wok w 128 = true -> 128 / (2 * w) = 64 / w ->
  narrowed (2 * w) w 128 128 [a; b] (vec_pack w a b).
Proof.
  intros HW HW2 E. destruct (wok_spec _ _ HW) as (H0 & _ & H1 & _). destruct (wok_spec _ _ HW2) as (_ & _ & H2 & _).
  split; [apply pack_reg; assumption|]. intros i Hi. unfold vec_pack. rewrite lane_pack by assumption. rewrite E.
  set (h := 64 / w) in *. assert (128 / w = 2 * h) as E2 by nia.
  destruct (Z.ltb_spec i h).
  - rewrite (Z.div_small i), (Z.mod_small i) by lia. reflexivity.
  - replace (i mod h) with (i - h); [|apply Z.mod_unique with 1; lia].
    replace (i / h) with 1; [reflexivity|apply Z.div_unique with (i - h); lia].
Qed.
Definition npair8 a b := mm_unpacklo 64 128 (mm_trunc 64 8 512 128 a) (mm_trunc 64 8 512 128 b).
Lemma narrowed_pair8 a b : narrowed 64 8 512 128 [a; b] (npair8 a b).
Proof.
  split; [apply lsh_reg; reflexivity|]. intros i Hi. change (128 / 8) with 16 in Hi. change (512 / 64) with 8.
  rewrite (lane_sub 8 8 i) by lia. change (8 * 8) with 64.
  assert (i / 8 = 0 \/ i / 8 = 1) as Hq by (Z.to_euclidean_division_equations; lia).
  pose proof (Z.mod_pos_bound i 8 ltac:(lia)).
  unfold npair8, mm_unpacklo. change (128 / 64) with 2.
  destruct Hq as [Hq|Hq]; rewrite Hq.
  - unfold lsh. rewrite lane_pack by (split; reflexivity || discriminate || reflexivity).
    change (lane 8 (i mod 8) (wrap 64 (lane 64 0 (mm_trunc 64 8 512 128 a))) = wrap 8 (lane 64 (i mod 8) a)).
    rewrite wrap_lane. change 64 with (8 * 8) at 1. rewrite lane_lane by lia. unfold mm_trunc. rewrite lane_pack by (try reflexivity; change (128 / 8) with 16; lia).
    change (512 / 64) with 8. replace (0 * 8 + i mod 8) with (i mod 8) by lia.
    replace (i mod 8 <? 8) with true by (symmetry; apply Z.ltb_lt; lia). reflexivity.
  - unfold lsh. rewrite lane_pack by (split; reflexivity || discriminate || reflexivity).
    change (lane 8 (i mod 8) (wrap 64 (lane 64 0 (mm_trunc 64 8 512 128 b))) = wrap 8 (lane 64 (i mod 8) b)).
    rewrite wrap_lane. change 64 with (8 * 8) at 1. rewrite lane_lane by lia. unfold mm_trunc. rewrite lane_pack by (try reflexivity; change (128 / 8) with 16; lia).
    change (512 / 64) with 8. replace (0 * 8 + i mod 8) with (i mod 8) by lia.
    replace (i mod 8 <? 8) with true by (symmetry; apply Z.ltb_lt; lia). reflexivity.
Qed.
Lemma Sel_extract256 env i c e M : 0 <= i < 2 -> Sel c 512 64 e env M ->
  Sel c 256 32 (mm_extract256 i e) env (fun k => M (32 * i + k)).
Proof.
  intros Hi H Hc. apply (Sel_part env 512 256 i c e M H). rewrite Hc. assert (i = 0 \/ i = 1) as [-> | ->] by lia; reflexivity.
Qed.
Lemma Sel_combine256 env c d lo hi M N : Sel c 256 32 lo env M -> Sel d 256 32 hi env N ->
  Sel (c && d) 512 64 (mm_combine256 lo hi) env (fun k => if k <? 32 then M k else N (k - 32)).
Proof. intros HM HN Hc. apply (Sel_cat env 256 c d lo hi M N HM HN). rewrite Hc. reflexivity. Qed.
Ltac sel_ext e ::= lazymatch e with
  | mm_extract256 _ _ => apply Sel_extract256; [split; reflexivity || discriminate|]
  | mm_combine256 _ _ => apply Sel_combine256
  | _ => is_var e; first
      [ apply (Sel_arg _ _ _ 4%nat); [reflexivity|assumption] | apply (Sel_arg _ _ _ 5%nat); [reflexivity|assumption]
      | apply (Sel_arg _ _ _ 6%nat); [reflexivity|assumption] | apply (Sel_arg _ _ _ 7%nat); [reflexivity|assumption] ]
  end.
Ltac nleaf := lazymatch goal with |- narrowed _ _ _ ?R' _ _ =>
  let G := eval vm_compute in (R' / 8) in
  eapply narrowed_sel; [change (R' / 8) with G; sel | vm_compute; reflexivity] end.
