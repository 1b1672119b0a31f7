From Verif Require Export Proof.MulP2.

Lemma mp_bound sg w x y : w12 w -> 0 <= x < 2 ^ w -> 0 <= y < 2 ^ w ->
  fits (sg, 2 * w) (cconv (sg, w) x * cconv (sg, w) y) = true /\ wrap (2 * w) (cconv (sg, w) x * cconv (sg, w) y) = s_mull sg w x y /\
  fits (sg, 2 * w) (cconv (sg, w) x) = true /\ fits (sg, 2 * w) (cconv (sg, w) y) = true.
Proof.
  intros Hw Hx Hy. assert (0 < w) as Hp by (destruct Hw as [-> | ->]; lia).
  rewrite <- (s_mull_wrap sg w) by auto. unfold cconv, mp. cbn [fst snd]. rewrite !fits_spec. cbn [fst snd].
  pose proof (prod_range w x y ltac:(lia) Hx Hy) as Hpr.
  pose proof (sgn_range w x Hp) as Sx. pose proof (sgn_range w y Hp) as Sy.
  destruct sg.
  - assert (2 ^ (2 * w - 1) = 2 * (2 ^ (w - 1) * 2 ^ (w - 1))) as E.
    { destruct Hw as [-> | ->]; reflexivity. }
    pose proof (pow2_pos (w - 1) ltac:(lia)). rewrite E. set (m := 2 ^ (w - 1)) in *. clearbody m. split; [nia|]. split; [reflexivity|]. split; nia.
  - assert (2 ^ (2 * w) = 2 ^ w * 2 ^ w) as E by (rewrite <- Z.pow_add_r by lia; f_equal; lia).
    rewrite !(wrap_small w) by auto. split; [exact Hpr|]. split; [reflexivity|]. rewrite E. split; nia.
Qed.
Lemma null_mul_el sg w x y : w12 w -> 0 <= x < 2 ^ w -> 0 <= y < 2 ^ w ->
  c_mul (ccast (sg, 2 * w) ((sg, w), cconv (sg, w) x)) ((sg, w), cconv (sg, w) y) = Ok ((sg, 2 * w), cconv (sg, w) x * cconv (sg, w) y).
Proof.
  intros Hw Hx Hy. destruct (mp_bound sg w x y Hw Hx Hy) as (F1 & _ & F2 & F3).
  assert (0 < 2 * w) by (destruct Hw as [-> | ->]; lia).
  unfold c_mul, ccast. cbn [snd]. rewrite (cconv_id (sg, 2 * w)) by auto.
  rewrite (carith_gen (sg, 2 * w)); auto; [apply cres_ok; auto|].
  destruct Hw as [-> | ->], sg; reflexivity.
Qed.
Lemma null_mull_ok sg w a b : w12 w -> exists x y, null_mull (ty sg w) (ty sg (2 * w)) a b = Ok [x; y] /\
  reg 128 x /\ reg 128 y /\ prods w 128 (s_mull sg w) a b x y.
Proof.
  intros Hw. set (n := 128 / (2 * w)).
  assert (wok (2 * w) 128 = true /\ 0 < w) as [HW Hp] by (destruct Hw as [-> | ->]; split; reflexivity).
  assert (forall j, 0 <= j -> nloop (ty sg (2 * w)) 128 (fun i => c_mul (ccast (ty sg (2 * w)) (el (ty sg w) a (j * n + i))) (el (ty sg w) b (j * n + i))) =
     Ok (pack (2 * w) 128 (fun i => s_mull sg w (lane w (j * n + i) a) (lane w (j * n + i) b)))) as HL.
  { intros j Hj. apply (nloop_pack (sg, 2 * w)); auto. intros i Hi. unfold el, ty. cbn [snd].
    rewrite null_mul_el by (auto; apply lane_range; lia). eexists. split; [reflexivity|]. cbn [snd].
    pose proof (lane_range w (j * n + i) a ltac:(lia)). pose proof (lane_range w (j * n + i) b ltac:(lia)).
    destruct (mp_bound sg w (lane w (j * n + i) a) (lane w (j * n + i) b) Hw) as (_ & -> & _); auto.
    symmetry. apply wrap_small. apply s_mull_range; auto; lia. }
  eexists _, _. split.
  - pose (N := fun j => nloop (ty sg (2 * w)) 128 (fun i => c_mul (ccast (ty sg (2 * w)) (el (ty sg w) a (j * n + i))) (el (ty sg w) b (j * n + i)))).
    assert (null_mull (ty sg w) (ty sg (2 * w)) a b = let* r0 := N 0 in let* rs := (let* r1 := N 1 in let* rs := Ok [] in Ok (r1 :: rs)) in Ok (r0 :: rs)) as -> by reflexivity.
    unfold N. rewrite !HL by lia. cbn [bind]. reflexivity.
  - split; [apply pack_reg; auto|]. split; [apply pack_reg; auto|]. intros i Hi. rewrite !lane_pack by auto.
    fold n. rewrite Z.mul_0_l, Z.mul_1_l, Z.add_0_l. split; apply wrap_small, s_mull_range; try lia; apply lane_range; lia.
Qed.

(** lanes out of a converted register *)
Lemma cv_lane1 w w' s s' f a x : cv w w' s s' f 1 a (Ok [x]) -> nl w (rbits s) = nl w' (rbits s') ->
  forall i, 0 <= i < rbits s / w -> lane w' i x = f (lane w i a).
Proof.
  intros (r & Er & _ & _ & EL) Hn i Hi. injection Er as <-. unfold lanes in EL. cbn [flat_map] in EL. rewrite app_nil_r, <- Hn in EL.
  assert (nth (Z.to_nat i) (elems w' (nl w (rbits s)) x) 0 = nth (Z.to_nat i) (map f (elems w (nl w (rbits s)) a)) (f 0)) as E.
  { rewrite EL. apply nth_indep. rewrite map_length, elems_length. unfold nl. lia. }
  rewrite (map_nth f) in E. rewrite !nth_elems in E by (unfold nl; lia). rewrite Z2Nat.id in E by lia. exact E.
Qed.
Lemma cv_lane2 w w' s s' f a x y : cv w w' s s' f 2 a (Ok [x; y]) -> nl w (rbits s) = (nl w' (rbits s') + nl w' (rbits s'))%nat ->
  forall i, 0 <= i < rbits s' / w' -> lane w' i x = f (lane w i a) /\ lane w' i y = f (lane w (rbits s' / w' + i) a).
Proof.
  intros (r & Er & _ & _ & EL) Hn i Hi. injection Er as <-. unfold lanes in EL. cbn [flat_map] in EL. rewrite app_nil_r, Hn in EL.
  assert (forall k, (k < nl w' (rbits s') + nl w' (rbits s'))%nat ->
    nth k (elems w' (nl w' (rbits s')) x ++ elems w' (nl w' (rbits s')) y) 0 = f (lane w (Z.of_nat k) a)) as E.
  { intros k Hk. rewrite EL, (nth_indep _ 0 (f 0)) by (rewrite map_length, elems_length; lia). rewrite (map_nth f), nth_elems by lia. reflexivity. }
  split.
  - specialize (E (Z.to_nat i) ltac:(unfold nl; lia)). rewrite app_nth1 in E by (rewrite elems_length; unfold nl; lia).
    rewrite nth_elems in E by (unfold nl; lia). rewrite Z2Nat.id in E by lia. exact E.
  - specialize (E (nl w' (rbits s') + Z.to_nat i)%nat ltac:(unfold nl; lia)). rewrite app_nth2 in E by (rewrite elems_length; lia).
    rewrite elems_length in E. replace (nl w' (rbits s') + Z.to_nat i - nl w' (rbits s'))%nat with (Z.to_nat i) in E by lia.
    rewrite nth_elems in E by (unfold nl; lia). rewrite Nat2Z.inj_add in E. unfold nl in E. rewrite !Z2Nat.id in E by lia. exact E.
Qed.
(** products of extended values *)
Lemma sgn_extend sg w x : 0 < w -> 0 <= x < 2 ^ w -> wrap (2 * w) (sgn (2 * w) (s_extend sg w (2 * w) x)) = wrap (2 * w) (if sg then sgn w x else x).
Proof. intros Hw Hx. rewrite wrap_sgn by lia. unfold s_extend. destruct sg; [apply wrap_wrap|reflexivity]. Qed.
Lemma prod_extend sg w x y : 0 < w -> 0 <= x < 2 ^ w -> 0 <= y < 2 ^ w ->
  wrap (2 * w) (sgn (2 * w) (s_extend sg w (2 * w) x) * sgn (2 * w) (s_extend sg w (2 * w) y)) = s_mull sg w x y.
Proof.
  intros Hw Hx Hy. rewrite <- (s_mull_wrap sg w) by auto. rewrite <- wrap_mul_l, <- wrap_mul_r, !sgn_extend, wrap_mul_l, wrap_mul_r by auto.
  unfold mp. destruct sg; reflexivity.
Qed.
Lemma msa_prods sg w (f : arch -> bool -> rsz -> Z -> res vec) A a b : w12 w -> valid_arch A = true -> use_avx2 A = false ->
  cv w (2 * w) R128 R128 (s_extend sg w (2 * w)) 2 a (f A sg R128 a) -> cv w (2 * w) R128 R128 (s_extend sg w (2 * w)) 2 b (f A sg R128 b) ->
  exists x y, (let* va := f A sg R128 a in let* vb := f A sg R128 b in
        let* a0 := aget va 0 in let* b0 := aget vb 0 in
        let* a1 := aget va 1 in let* b1 := aget vb 1 in
        Ok [msa_mulv (2 * w) a0 b0; msa_mulv (2 * w) a1 b1]) = Ok [x; y] /\ reg 128 x /\ reg 128 y /\ prods w 128 (s_mull sg w) a b x y.
Proof.
  intros Hw HV H2 Ca Cb. pose proof Ca as Ca'. pose proof Cb as Cb'. destruct Ca' as (ra & Ea & _ & La & _). destruct Cb' as (rb & Eb & _ & Lb & _).
  destruct ra as [|a0 [|a1 [|? ?]]]; try discriminate. destruct rb as [|b0 [|b1 [|? ?]]]; try discriminate.
  rewrite Ea in Ca. rewrite Eb in Cb.
  assert (nl w (rbits R128) = (nl (2 * w) (rbits R128) + nl (2 * w) (rbits R128))%nat) as Hn by (destruct Hw as [-> | ->]; reflexivity).
  assert (wok (2 * w) 128 = true /\ 0 < w) as [HW Hp] by (destruct Hw as [-> | ->]; split; reflexivity).
  rewrite Ea, Eb. eexists _, _. split; [reflexivity|].
  split; [apply v2_reg; auto|]. split; [apply v2_reg; auto|]. intros i Hi. unfold msa_mulv. rewrite !lane_v2 by auto. cbn [nth].
  destruct (cv_lane2 _ _ _ _ _ _ _ _ Ca Hn i Hi) as [-> ->]. destruct (cv_lane2 _ _ _ _ _ _ _ _ Cb Hn i Hi) as [-> ->].
  split; apply prod_extend; auto; apply lane_range; lia.
Qed.
