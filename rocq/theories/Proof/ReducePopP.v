(** reduce_popcnt is the number of ones of the whole vector. *)
From Verif Require Import Spec.Reduce Model.ReducePop Proof.CppLemmas Proof.ExtractP Proof.ExtractP2 Proof.SplitP Proof.ConvertP Proof.CastP Proof.PopcntP Proof.PopcntP2 Proof.PopcntP3
  Proof.ReduceP Proof.ReduceP3 Proof.ReduceP4 Proof.ReduceP5 Proof.ReduceP6 Proof.ReduceP7 Thm.T_Cast.

(** the number of ones of n lanes of w bits *)
Definition pc (w : Z) (n : nat) (a : Z) : Z := sumn n (fun i => s_popcnt w (lane w i a)).
Lemma cnt_cg n x y : x mod 2 ^ Z.of_nat n = y mod 2 ^ Z.of_nat n -> cnt n x = cnt n y.
Proof.
  intros H. pose proof (pow2_pos (Z.of_nat n)).
  rewrite (Z.div_mod x (2 ^ Z.of_nat n)), (Z.div_mod y (2 ^ Z.of_nat n)) by lia. rewrite !(Z.add_comm (_ * _)), !cnt_low. f_equal. exact H.
Qed.
Lemma cnt_lane w i a : 0 <= w -> 0 <= i -> cnt (Z.to_nat w) (lane w i a) = cnt (Z.to_nat w) (a / 2 ^ (w * i)).
Proof.
  intros Hw Hi. apply cnt_cg. rewrite Z2Nat.id by lia. change (lane w i a mod 2 ^ w) with (wrap w (lane w i a)). rewrite wrap_lane by lia.
  rewrite <- Z.shiftr_div_pow2 by nia. reflexivity.
Qed.
Lemma pc_cnt w n a : 0 < w -> pc w n a = cnt (n * Z.to_nat w) a.
Proof.
  intros Hw. unfold pc. induction n as [|n IH]; [reflexivity|]. rewrite sumn_S, IH. replace (S n * Z.to_nat w)%nat with (n * Z.to_nat w + Z.to_nat w)%nat by lia.
  rewrite cnt_app, s_popcnt_cnt, cnt_lane by lia. do 4 f_equal. rewrite Nat2Z.inj_mul, Z2Nat.id by lia. apply Z.mul_comm.
Qed.
Lemma pc_any w w' R a : wok w R = true -> wok w' R = true -> pc w (nl w R) a = pc w' (nl w' R) a.
Proof.
  intros H H'. destruct (wok_spec _ _ H) as (P & _ & E & N). destruct (wok_spec _ _ H') as (P' & _ & E' & N'). rewrite !pc_cnt by auto. f_equal. nia.
Qed.
Lemma bits_set_pop w x : 0 <= w -> bits_set w x = s_popcnt w x.
Proof. intros. unfold bits_set, s_popcnt, zrange. rewrite map_map. reflexivity. Qed.
Lemma popv_sum w R a : wok w R = true -> lsum false w (nl w R) (popv w R a) = pc w (nl w R) a.
Proof.
  intros H. destruct (wok_spec _ _ H) as (P & _ & _ & N). apply sumn_ext. intros i Hi. rewrite N in Hi. unfold popv. cbn [value]. rewrite lane_v1 by auto.
  rewrite s_popcnt_cnt. apply cnt_wrap. lia.
Qed.
Lemma pc_total w s va : total (map (fun a => pc w (nl w (rbits s)) a) va) = total (map (s_popcnt w) (lanes w s va)).
Proof.
  induction va as [|a va IH]; [reflexivity|]. rewrite lanes_cons, map_app, total_app, <- IH. cbn [map total fold_right]. f_equal.
  unfold pc, sumn, elems. rewrite map_map. reflexivity.
Qed.

Section P.
  Variables (A : arch) (fp : Z).
  Hypotheses (HV : valid_arch A = true) (Hfp : fp mod 64 = 0).
  Let H16 : fp mod 16 = 0.
  Proof. apply Z.mod_divide; [lia|]. apply Z.mod_divide in Hfp; [|lia]. destruct Hfp as [k ->]. exists (k * 4). lia. Qed.
  Lemma reduce_add_36 w s a : w = W32 \/ w = W64 -> avail_int A (wb w) s = true -> reg (rbits s) a ->
    reduce_add A fp false w s [a] = Ok (wrap (wb w) (lsum false (wb w) (nl (wb w) (rbits s)) a)).
  Proof.
    intros Hw HA Ha. rewrite one_total.
    assert (E : reduce_add A fp false w s [a] = reduce_add_32_64 A fp false w s [a]) by (destruct Hw as [-> | ->]; reflexivity). rewrite E.
    assert (W1 : wfv s [a]) by (constructor; [auto|constructor]). assert (N1 : [a] <> []) by discriminate.
    rewrite (reduce_add_32_64_ok A fp HV H16 w Hw) by auto. reflexivity.
  Qed.
  Lemma pop_add_ok w s a : w = W32 \/ w = W64 -> avail_int A (wb w) s = true -> reg (rbits s) a -> yields 32 (pop_add A fp w s a) (pc 32 (nl 32 (rbits s)) a).
  Proof.
    intros Hw HA Ha. assert (HW : wok (wb w) (rbits s) = true) by apply wok_lib. unfold pop_add. rewrite i_popcnt_ok by auto. cbn [bind].
    rewrite reduce_add_36 by (auto; apply v1_reg; auto). cbn [bind]. eexists. split; [reflexivity|]. eapply cg_trans; [apply cg_wrap; lia|].
    apply (cg_low 32 (wb w)); [destruct Hw as [-> | ->]; cbn; lia|]. eapply cg_trans; [apply cg_wrap; destruct Hw as [-> | ->]; cbn; lia|].
    rewrite popv_sum by auto. rewrite (pc_any (wb w) 32); auto; [apply cg_refl|destruct s; reflexivity].
  Qed.
  Lemma sat_add x y z t : cg 32 x z -> y = t -> cg 32 (wrap 32 (x + y)) (z + t).
  Proof. intros H ->. eapply cg_trans; [apply cg_wrap; lia|]. apply cg_add; [lia|auto|apply cg_refl]. Qed.
  Lemma red_pop128_ok a : reg 128 a -> yields 32 (red_pop128 A fp a) (pc 32 (nl 32 128) a).
  Proof.
    intros Ha. unfold red_pop128. destruct (use_null A) eqn:E0.
    { unfold null_redN. cbn [flat_map]. rewrite app_nil_r.
      assert (G : forall l x, fits c_u32 x = true -> Forall (fun y => 0 <= y < 2 ^ 32) l ->
        accum c_u32 (fun r x => let* p := el_popcnt W32 x in c_add r p) (c_u32, x) (map (pair c_u32) l) = Ok (c_u32, wrap 32 (x + total (map (s_popcnt 32) l)))).
      { induction l as [|y l IH]; intros x Hx Hl.
        - cbn [map accum total fold_right]. rewrite Z.add_0_r. do 2 f_equal. symmetry. apply fits_spec in Hx. cbn [fst snd c_u32] in Hx. apply wrap_small. lia.
        - inversion Hl; subst. cbn [map accum]. pose proof (el_popcnt_ok W32 y) as Ey. cbn [wb] in Ey. change (ut W32) with c_u32 in Ey. rewrite Ey by auto. cbn [bind].
          assert (FY : fits c_u32 (s_popcnt 32 y) = true).
          { apply fits_spec. rewrite s_popcnt_cnt. pose proof (cnt_range (Z.to_nat 32) y). cbn [fst snd c_u32]. change (Z.of_nat (Z.to_nat 32)) with 32 in *. lia. }
          unfold c_add. rewrite (carith_gen c_u32) by (auto; reflexivity).
          change (cres c_u32 (x + s_popcnt 32 y)) with (@Ok cval (c_u32, wrap 32 (x + s_popcnt 32 y))). cbn [bind].
          change (ccast c_u32 (c_u32, wrap 32 (x + s_popcnt 32 y))) with (c_u32, wrap 32 (wrap 32 (x + s_popcnt 32 y))). rewrite wrap_wrap.
          rewrite IH by (auto; apply (cconv_fits c_u32); reflexivity).
          do 2 f_equal. cbn [map total fold_right]. rewrite wrap_add_l by lia. f_equal. unfold total. lia. }
      rewrite els_val. rewrite G.
      - cbn [bind snd]. eexists. split; [reflexivity|]. rewrite Z.add_0_l. eapply cg_trans; [apply cg_wrap; lia|]. unfold pc, sumn.
        rewrite map_map. change (nl (snd c_u32) 128 - 0)%nat with (nl 32 128).
        rewrite (map_ext (fun x => s_popcnt 32 (cconv c_u32 (lane (snd c_u32) (Z.of_nat x) a))) (fun i => s_popcnt 32 (lane 32 (Z.of_nat i) a))); [apply cg_refl|].
        intros i. f_equal. change (cconv c_u32 (lane (snd c_u32) (Z.of_nat i) a)) with (wrap 32 (lane 32 (Z.of_nat i) a)). apply wrap_lane; lia.
      - reflexivity.
      - apply Forall_forall. intros y Hy. apply in_map_iff in Hy as (i & <- & _). apply (wrap_range 32). lia. }
    assert (EX : forall e id, 0 <= id < 128 / eb e -> e = I32 \/ e = I64 -> i_extract A fp false e R128 id a = Ok (lane (eb e) id a)).
    { intros e id Hid He. rewrite (i_extract_ok A fp HV R128 H16) by (auto; try discriminate; destruct He as [-> | ->]; reflexivity). reflexivity. }
    destruct (use_popcnt A) eqn:E1.
    { destruct (use_64 A).
      - rewrite !EX by (auto; cbn; lia). cbn [bind eb]. eexists. split; [reflexivity|].
        rewrite (pc_any 32 64) by reflexivity. change (pc 64 (nl 64 128) a) with (s_popcnt 64 (lane 64 0 a) + (s_popcnt 64 (lane 64 1 a) + 0)).
        rewrite Z.add_0_r. unfold mm_popcnt. rewrite !bits_set_pop by lia. apply sat_add; [|reflexivity]. rewrite Z.add_0_l. apply cg_wrap. lia.
      - rewrite !EX by (auto; cbn; lia). cbn [bind eb]. eexists. split; [reflexivity|].
        change (pc 32 (nl 32 128) a) with (s_popcnt 32 (lane 32 0 a) + (s_popcnt 32 (lane 32 1 a) + (s_popcnt 32 (lane 32 2 a) + (s_popcnt 32 (lane 32 3 a) + 0)))).
        rewrite Z.add_0_r, !Z.add_assoc. unfold mm_popcnt. rewrite !bits_set_pop by lia. repeat (apply sat_add; [|reflexivity]). rewrite Z.add_0_l. apply cg_wrap. lia. }
    destruct (use_neon A) eqn:E2.
    { assert (EV : vcntq_u8 a = popv 8 128 a) by (apply v1_ext; [reflexivity|]; intros; f_equal; apply bits_set_pop; lia).
      assert (Hr : reg 128 (vcntq_u8 a)) by (apply v1_reg; reflexivity). cbn [reduce_add].
      assert (W1 : wfv R128 [vcntq_u8 a]) by (constructor; [auto|constructor]). assert (N1 : [vcntq_u8 a] <> []) by discriminate.
      rewrite (reduce_u8_ok A fp HV H16) by auto using shape1, multi1, short1.
      rewrite <- (one_total false 8 R128). cbn [rbits]. rewrite EV, popv_sum by reflexivity. eexists. split; [reflexivity|].
      rewrite (pc_any 32 8) by reflexivity. rewrite wrap_small; [apply cg_refl|]. rewrite pc_cnt by lia. pose proof (cnt_range (nl 8 128 * Z.to_nat 8) a). 
      change (Z.of_nat (nl 8 128 * Z.to_nat 8)) with 128 in *. lia. }
    destruct (use_vsx207 A || use_msa A); [apply (pop_add_ok W64 R128); auto|].
    destruct (use_sse2 A); [apply (pop_add_ok W64 R128)|apply (pop_add_ok W32 R128)]; auto.
  Qed.
  Lemma pc_halves H a : wok 32 H = true -> pc 32 (nl 32 (2 * H)) a = pc 32 (nl 32 H) (lane H 0 a) + pc 32 (nl 32 H) (lane H 1 a).
  Proof.
    intros HH. pose proof (elems_halves 32 H a HH) as E.
    assert (G : forall n x, pc 32 n x = total (map (s_popcnt 32) (elems 32 n x))) by (intros; unfold pc, sumn, elems; rewrite map_map; reflexivity).
    rewrite !G, E, map_app, total_app. reflexivity.
  Qed.
  Lemma add_halves m0 m1 t0 t1 : yields 32 m0 t0 -> yields 32 m1 t1 -> yields 32 (let* r0 := m0 in let* r1 := m1 in Ok (wrap 32 (r0 + r1))) (t0 + t1).
  Proof.
    intros (x & -> & Cx) (y & -> & Cy). cbn [bind]. eexists. split; [reflexivity|]. eapply cg_trans; [apply cg_wrap; lia|]. apply cg_add; [lia|auto|auto].
  Qed.
  Lemma red_pop256_ok a : avail_int A 32 R256 = true -> reg 256 a -> yields 32 (red_pop256 A fp a) (pc 32 (nl 32 256) a).
  Proof.
    intros HA Ha. unfold red_pop256. cbn in HA. rewrite HA. destruct (use_popcnt A && use_64 A).
    - cbn [i_split1]. rewrite (pc_halves 128) by reflexivity. apply add_halves; apply red_pop128_ok; apply (lane_range 128); lia.
    - apply (pop_add_ok W64 R256); auto.
  Qed.
  Lemma red_pop512_ok a : avail_int A 32 R512 = true -> reg 512 a -> yields 32 (red_pop512 A fp a) (pc 32 (nl 32 512) a).
  Proof.
    intros HA Ha. unfold red_pop512. cbn in HA. rewrite HA. assert (use_avx2 A = true) by (destruct (use_avx2 A) eqn:?; auto; exfalso; vimp HV).
    destruct (use_popcnt A && use_64 A).
    - cbn [i_split1]. rewrite (pc_halves 256) by reflexivity. apply add_halves; apply red_pop256_ok; auto; apply (lane_range 256); lia.
    - apply (pop_add_ok W64 R512); auto.
  Qed.
  Lemma red_pop1_ok s a : avail_int A 32 s = true -> reg (rbits s) a -> yields 32 (red_pop1 A fp s a) (pc 32 (nl 32 (rbits s)) a).
  Proof. destruct s; intros; [apply red_pop128_ok|apply red_pop256_ok|apply red_pop512_ok]; auto. Qed.
  Lemma red_popN_ok s va : avail_int A 32 s = true -> wfv s va -> forall r, yields 32 (red_popN A fp s r va) (r + total (map (s_popcnt 32) (lanes 32 s va))).
  Proof.
    intros HA. rewrite <- pc_total. induction 1 as [|a va Ha Hva IH]; intros r; cbn [red_popN map total fold_right].
    - rewrite Z.add_0_r. eexists. split; [reflexivity|apply cg_refl].
    - destruct (red_pop1_ok s a HA Ha) as (x & E & C). rewrite E. cbn [bind]. eapply yields_cg; [apply IH|].
      unfold total. rewrite Z.add_assoc. apply cg_add; [lia| |apply cg_refl]. eapply cg_trans; [apply cg_wrap; lia|]. apply cg_add; [lia|apply cg_refl|exact C].
  Qed.
  (** the results are all in the range of uint32_t *)
  Lemma lanes_cnt w s va : wok w (rbits s) = true -> wok 32 (rbits s) = true -> total (map (s_popcnt w) (lanes w s va)) = total (map (s_popcnt 32) (lanes 32 s va)).
  Proof. intros H H'. rewrite <- !pc_total. f_equal. apply map_ext. intros a. apply pc_any; auto. Qed.
End P.
