(** reduce_add: the ladders. *)
From Verif Require Import Spec.Reduce Model.ReduceAdd Proof.CppLemmas Proof.BitwiseP Proof.ArithP Proof.ShiftP Proof.SetSplatP Proof.CmpP
  Proof.MinMaxP Proof.MoveP Proof.ExtractP2 Proof.SplitP Proof.MakeConstP Proof.LoadStoreP4 Proof.PopcntP Proof.PopcntP3 Proof.ReduceP Proof.ReduceP3.

Section G.
  Variables (A : arch) (fp : Z).
  Hypotheses (HV : valid_arch A = true) (Hfp : fp mod 16 = 0).
  (** ---------- vec_sum4s ---------- *)
  Lemma value_bound sg w x : 0 < w -> 0 <= x < 2 ^ w -> - 2 ^ w <= value sg w x <= 2 ^ w.
  Proof.
    intros Hw Hx. unfold value. destruct sg; [|lia]. pose proof (sgn_range w x Hw).
    assert (2 ^ w = 2 * 2 ^ (w - 1)) by (rewrite <- Z.pow_succ_r by lia; f_equal; lia). pose proof (pow2_pos (w - 1)). lia.
  Qed.
  Definition words (sg : bool) (w i a : Z) : Z := sumn (Z.to_nat (32 / w)) (fun j => value sg w (lane w (32 / w * i + j) a)).
  Lemma words_bound sg w i a : w = 8 \/ w = 16 -> - 2 ^ 17 <= words sg w i a <= 2 ^ 17.
  Proof.
    intros Hw. assert (0 < w) by lia.
    pose proof (sumn_range (Z.to_nat (32 / w)) (fun j => value sg w (lane w (32 / w * i + j) a)) (- 2 ^ w) (2 ^ w)) as H0.
    specialize (H0 ltac:(intros; apply value_bound; [lia|apply lane_range; lia])). fold (words sg w i a) in H0.
    destruct Hw as [-> | ->]; [change (Z.of_nat (Z.to_nat (32 / 8))) with 4 in H0|change (Z.of_nat (Z.to_nat (32 / 16))) with 2 in H0]; lia.
  Qed.
  Lemma words_pos w i a : 0 < w -> 0 <= words false w i a.
  Proof.
    intros. unfold words. generalize (Z.to_nat (32 / w)). intros n. induction n as [|n IH]; [cbn; lia|]. rewrite sumn_S.
    pose proof (lane_range w (32 / w * i + Z.of_nat n) a ltac:(lia)). cbn [value] in *. lia.
  Qed.
  Lemma sum4s_lane sg w a b B i : w = 8 \/ w = 16 -> 0 <= i < 4 -> - B <= value sg 32 (lane 32 i b) <= B -> B + 2 ^ 17 < 2 ^ 31 ->
    value sg 32 (lane 32 i (vec_sum4s sg w a b)) = words sg w i a + value sg 32 (lane 32 i b).
  Proof.
    intros Hw Hi HB Hs. unfold vec_sum4s. rewrite lane_pack by (try reflexivity; change (128 / 32) with 4; lia).
    fold (total (map (fun j => vlane sg w (32 / w * i + j) a) (zrange (32 / w)))). rewrite zr_sum.
    change (sumn (Z.to_nat (32 / w)) (fun j => vlane sg w (32 / w * i + j) a)) with (words sg w i a). rewrite vlane_value.
    pose proof (words_bound sg w i a Hw) as HS. set (x := words sg w i a + value sg 32 (lane 32 i b)) in *.
    destruct sg; cbn [value].
    - rewrite sgn_wrap by lia. unfold sats. change (2 ^ (32 - 1)) with (2 ^ 31). 
      destruct (Z.ltb_spec x (- 2 ^ 31)); [unfold x in *; lia|]. destruct (Z.ltb_spec (2 ^ 31 - 1) x); [unfold x in *; lia|]. apply sgn_id; lia.
    - pose proof (words_pos w i a ltac:(lia)). pose proof (lane_range 32 i b ltac:(lia)). cbn [value] in HB, x. unfold satu.
      destruct (Z.ltb_spec x 0); [unfold x in *; lia|]. destruct (Z.ltb_spec (2 ^ 32 - 1) x); [unfold x in *; lia|]. apply wrap_small. lia.
  Qed.
  Lemma words_total sg w a : w = 8 \/ w = 16 -> sumn (nl 32 128) (fun i => words sg w i a) = lsum sg w (nl w 128) a.
  Proof.
    intros Hw. unfold lsum. destruct Hw as [-> | ->].
    - change (nl 8 128) with (nl 32 128 * Z.to_nat (32 / 8))%nat. rewrite sumn_group. reflexivity.
    - change (nl 16 128) with (nl 32 128 * Z.to_nat (32 / 16))%nat. rewrite sumn_group. reflexivity.
  Qed.
  Lemma gather_sum4s sg w : w = 8 \/ w = 16 -> forall va r B, 0 <= B -> reg 128 r -> (forall i, 0 <= i < 4 -> - B <= value sg 32 (lane 32 i r) <= B) ->
    B + 2 ^ 17 * Z.of_nat (length va) < 2 ^ 31 ->
    exists r', gather (fun a r => Ok (vec_sum4s sg w a r)) r va = Ok r' /\ reg 128 r' /\
      lsum sg 32 (nl 32 128) r' = lsum sg 32 (nl 32 128) r + total (map (fun a => lsum sg w (nl w 128) a) va).
  Proof.
    intros Hw. induction va as [|a va IH]; intros r B H0 Hr HB Hl; cbn [gather length map total fold_right] in *.
    - exists r. split; [reflexivity|]. split; [exact Hr|lia].
    - cbn [bind]. set (r1 := vec_sum4s sg w a r).
      assert (L : forall i, 0 <= i < 4 -> value sg 32 (lane 32 i r1) = words sg w i a + value sg 32 (lane 32 i r)).
      { intros i Hi. apply (sum4s_lane sg w a r B); auto. lia. }
      destruct (IH r1 (B + 2 ^ 17)) as (r' & E & Hr' & S); [lia|apply pack_reg; reflexivity| |lia|].
      + intros i Hi. rewrite L by auto. pose proof (words_bound sg w i a Hw). specialize (HB i Hi). lia.
      + exists r'. split; [exact E|]. split; [exact Hr'|]. rewrite S. fold (total (map (fun a => lsum sg w (nl w 128) a) va)).
        assert (lsum sg 32 (nl 32 128) r1 = lsum sg w (nl w 128) a + lsum sg 32 (nl 32 128) r); [|lia].
        rewrite <- (words_total sg w a Hw). unfold lsum. rewrite <- sumn_add. apply sumn_ext. intros i Hi. apply L. exact Hi.
  Qed.
  Lemma sum4s_one sg w a : w = 8 \/ w = 16 -> lsum sg 32 (nl 32 128) (vec_sum4s sg w a 0) = lsum sg w (nl w 128) a.
  Proof.
    intros Hw. rewrite <- (words_total sg w a Hw). unfold lsum. apply sumn_ext. intros i Hi.
    assert (Z0 : value sg 32 (lane 32 i 0) = 0) by (rewrite lane_of_zero; destruct sg; reflexivity).
    rewrite (sum4s_lane sg w a 0 0) by (auto; try lia; exact Hi). rewrite Z0. lia.
  Qed.
  Lemma gather_sum4s_ok sg w va : w = 8 \/ w = 16 -> Z.of_nat (length va) < 2 ^ 13 ->
    exists r', gather (fun a r => Ok (vec_sum4s sg w a r)) 0 va = Ok r' /\ reg 128 r' /\
      lsum sg 32 (nl 32 128) r' = total (map (fun a => lsum sg w (nl w 128) a) va).
  Proof.
    intros Hw Hl. destruct (gather_sum4s sg w Hw va 0 0) as (r & E & Hr & S).
    - lia.
    - apply reg0. lia.
    - intros i Hi. rewrite lane_of_zero. destruct sg; split; vm_compute; discriminate.
    - lia.
    - exists r. split; [exact E|]. split; [exact Hr|]. rewrite S, lsum_0 by lia. reflexivity.
  Qed.
  (** ---------- 32 and 64 bits ---------- *)
  Definition af (w x y : Z) : Z := wrap w (x + y).
  Lemma red_af w l : 0 < w -> Forall (fun x => 0 <= x < 2 ^ w) l -> red (af w) 0 l = wrap w (total l).
  Proof.
    intros Hw. induction 1 as [|x l Hx Hl IH]; [rewrite wrap_0; auto; lia|]. cbn [red total fold_right]. fold (red (af w) 0 l) (total l). rewrite IH.
    unfold af. rewrite wrap_add_r by lia. reflexivity.
  Qed.
  Section W.
  Variable (w : ew).
  Local Notation P := (fun x => 0 <= x < 2 ^ wb w).
  Let wp : 0 < wb w. Proof. destruct w; reflexivity. Qed.
  Let ebw : eb (iet w) = wb w. Proof. destruct w; reflexivity. Qed.
  Lemma a_assoc x y z : P x -> P y -> P z -> af (wb w) x (af (wb w) y z) = af (wb w) (af (wb w) x y) z.
  Proof. intros _ _ _. unfold af. rewrite wrap_add_r, wrap_add_l by lia. f_equal. lia. Qed.
  Lemma a_comm x y : P x -> P y -> af (wb w) x y = af (wb w) y x.
  Proof. intros _ _. unfold af. f_equal. lia. Qed.
  Lemma a_P x y : P x -> P y -> P (af (wb w) x y).
  Proof. intros _ _. apply wrap_range. lia. Qed.
  Lemma a_0 : P 0. Proof. split; [lia|]. apply pow2_pos. lia. Qed.
  Lemma a_e x : P x -> af (wb w) 0 x = x.
  Proof. intros. apply wrap_small. auto. Qed.
  Lemma a_v x : P x -> P x. Proof. auto. Qed.
  Lemma a_g x y : P x -> P y -> wrap (wb w) (x + y) = af (wb w) x y. Proof. reflexivity. Qed.
  Lemma a_op s a b : avail_et A (iet w) s = true -> reg (rbits s) a -> reg (rbits s) b -> i_add A w s a b = Ok (v2 (wb w) (rbits s) Z.add a b).
  Proof. intros HA _ _. apply i_add_ok; auto. destruct w; exact HA. Qed.
  Lemma amean n a : mean (af (wb w)) 0 (wb w) (fun x => x) n a = wrap (wb w) (lsum false (wb w) n a).
  Proof.
    unfold mean. rewrite map_id. rewrite red_af.
    - rewrite lsum_elems. f_equal. f_equal. symmetry. apply map_id.
    - exact wp.
    - apply Forall_forall. intros x Hx. unfold elems in Hx. apply in_map_iff in Hx as (i & <- & _). apply lane_range. lia.
  Qed.
  Lemma a_sop x y : P x -> P y -> wb w = 32 \/ wb w = 64 -> exists d, c_add (ut w, x) (ut w, y) = Ok d /\ ccast (ut w) d = (ut w, af (wb w) x y).
  Proof.
    intros Hx Hy Hw. assert (E : pt w = ut w) by (unfold pt; destruct w; cbn in Hw; try lia; reflexivity).
    exists (ut w, af (wb w) x y). split.
    - unfold c_add. rewrite (carith_p Z.add w) by (auto; rewrite E; apply fits_spec; auto). rewrite E. apply cres_u.
    - apply ccast_u. apply wrap_range. lia.
  Qed.
  Hypothesis H36 : w = W32 \/ w = W64.
  Lemma h36 : wb w = 32 \/ wb w = 64. Proof. destruct H36 as [-> | ->]; auto. Qed.
  Lemma red_add128_ok a : reg 128 a -> red_add128 A fp w a = Ok (wrap (wb w) (lsum false (wb w) (nl (wb w) 128) a)).
  Proof.
    intros Ha. rewrite <- amean.
    assert (T : red_tree A fp (i_add A w R128) false (iet w) a = Ok (mean (af (wb w)) 0 (wb w) (fun x => x) (nl (wb w) 128) a)).
    { destruct (red_tree_ok (af (wb w)) 0 P a_assoc a_comm a_0 a_P a_e (wb w) (fun x => x) Z.add a_v a_g A fp (iet w) (i_add A w) HV Hfp ebw a_op false a Ha) as (x & E & Hx & M); [discriminate|].
      rewrite E. cbn [value]. rewrite M. reflexivity. }
    assert (N : null_red1 (ut w) (ut w) c_add 1 a = Ok (mean (af (wb w)) 0 (wb w) (fun x => x) (nl (wb w) 128) a)).
    { apply (null_red1_ok (af (wb w)) 0 P a_assoc a_comm a_0 a_P a_e (wb w) (fun x => x) Z.add a_v A (iet w) (i_add A w) ebw a_op (ut w) c_add); auto.
      - intros. symmetry. apply u_cconv; auto.
      - intros. apply a_sop; auto using h36.
      - apply u_cconv. apply lane_range. lia. }
    rewrite amean in *. destruct H36 as [-> | ->]; cbn [red_add128].
    - destruct (use_null A) eqn:E0; [exact N|]. destruct (use_msa A) eqn:E1; [|exact T].
      change (let* m := i_move_l A I32 R128 2 (msa_hadd_u 32 a a) in let* sum := i_add A W32 R128 (msa_hadd_u 32 a a) m in i_extract A fp false I32 R128 0 sum)
        with (msa_fin16 A fp false a).
      destruct (msa_fin16_ok A fp HV Hfp 32 false a) as (x & E & C); [lia|]. unfold msa_fin16, low_words in *.
      assert (X : exists y, i_extract A fp false I32 R128 0 y = Ok x /\ reg 128 y).
      { destruct (word_step A HV 2 (msa_hadd false 32 a a) ltac:(apply pack_reg; reflexivity) ltac:(lia)) as (m & Em & _). rewrite Em in E. cbn [bind] in E.
        rewrite i_add_ok in E by auto. cbn [bind] in E. eexists. split; [exact E|apply v2_reg; reflexivity]. }
      destruct X as (y & Ey & Hy). rewrite (x_ok A fp HV Hfp false I32 0 y Hy) in Ey by (first [discriminate | split; vm_compute; [discriminate|reflexivity]]).
      rewrite E. f_equal. injection Ey as <-. unfold cg in C. cbn [eb value] in C. rewrite wrap_lane in C. cbn [eb value]. rewrite C. reflexivity.
    - assert (SUM : wrap 64 (lane 64 0 a + lane 64 1 a) = wrap 64 (lsum false 64 (nl 64 128) a)).
      { change (lsum false 64 (nl 64 128) a) with (lane 64 0 a + (lane 64 1 a + 0)). f_equal. lia. }
      destruct (use_null A) eqn:E0; [exact N|]. destruct (use_sse2 A) eqn:E1; [exact T|].
      destruct (use_neon A) eqn:E2; [rewrite SUM; reflexivity|].
      assert (X : forall id, 0 <= id < 2 -> i_extract A fp false I64 R128 id a = Ok (lane 64 id a)).
      { intros id Hid. rewrite (i_extract_ok A fp HV R128 Hfp false I64 id a); auto. discriminate. }
      destruct (use_altivec A || use_msa A) eqn:E3.
      + rewrite !X by lia. cbn [bind]. rewrite SUM. reflexivity.
      + exfalso. apply orb_false_iff in E3 as [E3 E4]. clear - HV E0 E1 E2 E3 E4. fam HV; fcontra.
  Qed.
  Lemma red_add1_ok s a : avail_int A (wb w) s = true -> reg (rbits s) a -> red_add1 A fp w s a = Ok (wrap (wb w) (lsum false (wb w) (nl (wb w) (rbits s)) a)).
  Proof.
    intros HA0 Ha. assert (HA : avail_et A (iet w) s = true) by (destruct w; exact HA0). rewrite <- amean. unfold red_add1.
    edestruct (red_wide_ok (af (wb w)) 0 P a_assoc a_comm a_0 a_P a_e (wb w) (fun x => x) Z.add a_v a_g A (iet w) (i_add A w) ebw a_op (red_add128 A fp w) (fun m r => r = m) s a)
      as (r & E & ->); [exact HA|apply avail_256; auto|exact Ha| |exact E].
    intros b Hb. eexists. split; [apply red_add128_ok; auto|symmetry; apply amean].
  Qed.
  Lemma reduce_add_32_64_ok sg s va : avail_int A (wb w) s = true -> wfv s va -> va <> [] ->
    reduce_add_32_64 A fp sg w s va = Ok (cconv (sg, wb w) (total (map (value sg (wb w)) (lanes (wb w) s va)))).
  Proof.
    intros HA0 Hva Hn. assert (HA : avail_et A (iet w) s = true) by (destruct w; exact HA0).
    assert (EQ : yields (wb w) (match va with
              | [a] => red_add1 A fp w s a
              | _ => if use_null A || (match w with W64 => use_altivec A && negb (use_vsx207 A) | _ => false end)
                     then null_redN (ut w) (ut w) c_add 0 va
                     else let* r := foldv (i_add A w s) 0 va in red_add1 A fp w s r
              end) (total (map (value sg (wb w)) (lanes (wb w) s va)))).
    { assert (TT : cg (wb w) (total (lanes (wb w) s va)) (total (map (value sg (wb w)) (lanes (wb w) s va)))).
      { clear - wp. induction (lanes (wb w) s va) as [|x l IH]; [apply cg_refl|]. cbn [map total fold_right]. apply cg_add; [lia| |exact IH]. apply cg_sym, cg_value. lia. }
      assert (RL : red (af (wb w)) 0 (lanes (wb w) s va) = wrap (wb w) (total (lanes (wb w) s va))).
      { apply red_af; auto. pose proof (lanes_P P (wb w) (fun x => x) a_v s va wp) as L. rewrite map_id in L. exact L. }
      assert (ONE : forall a, va = [a] -> yields (wb w) (red_add1 A fp w s a) (total (map (value sg (wb w)) (lanes (wb w) s va)))).
      { intros a ->. inversion Hva; subst. rewrite red_add1_ok by auto. eexists. split; [reflexivity|]. eapply cg_trans; [apply cg_wrap; lia|].
        eapply cg_trans; [|exact TT]. rewrite lsum_elems. cbn [value]. rewrite map_id. unfold lanes. cbn [flat_map]. rewrite app_nil_r. apply cg_refl. }
      assert (MU : yields (wb w) (if use_null A || (match w with W64 => use_altivec A && negb (use_vsx207 A) | _ => false end)
                     then null_redN (ut w) (ut w) c_add 0 va
                     else let* r := foldv (i_add A w s) 0 va in red_add1 A fp w s r) (total (map (value sg (wb w)) (lanes (wb w) s va)))).
      { match goal with |- yields _ (if ?c then _ else _) _ => destruct c eqn:Ec end.
        - assert (s = R128) as ->.
          { apply (narrow A (wb w)); auto. clear - HV Ec. destruct (use_null A) eqn:?; [fam HV; auto; fcontra|].
            cbn [orb] in Ec. destruct w; try discriminate Ec. rewrite !andb_true_iff in Ec. destruct Ec as [Ec _]. fam HV; auto; fcontra. }
          rewrite (null_redN_ok (af (wb w)) 0 P a_assoc a_comm a_0 a_P a_e (wb w) (fun x => x) Z.add a_v A (iet w) (i_add A w) ebw a_op (ut w) c_add).
          + eexists. split; [reflexivity|]. rewrite map_id, RL. eapply cg_trans; [apply cg_wrap; lia|exact TT].
          + reflexivity.
          + intros. symmetry. apply u_cconv; auto.
          + intros. apply a_sop; auto using h36.
        - destruct (foldv_ok (af (wb w)) 0 P a_assoc a_comm a_0 a_P a_e (wb w) (fun x => x) Z.add a_v a_g A (iet w) (i_add A w) ebw a_op s va HA Hva 0 ltac:(apply reg0; destruct s; cbn; lia)) as (r & E & Hr & M).
          rewrite E. cbn [bind]. rewrite red_add1_ok by auto. eexists. split; [reflexivity|]. rewrite <- amean, M, amean, lsum_0, map_id, RL by auto.
          unfold af. rewrite wrap_0 by lia. rewrite Z.add_0_l. eapply cg_trans; [apply cg_wrap; lia|]. eapply cg_trans; [apply cg_wrap; lia|exact TT]. }
      destruct va as [|a [|b va]]; [contradiction|apply ONE; reflexivity|exact MU]. }
    unfold reduce_add_32_64. destruct EQ as (x & E & C). rewrite E. cbn [bind]. f_equal. apply cconv_cg; auto.
  Qed.
  End W.
End G.
