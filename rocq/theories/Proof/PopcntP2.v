From Verif Require Import Proof.PopcntP.
From Verif Require Import Spec.Counting Model.Popcnt Proof.CppLemmas Proof.BitwiseP Proof.ArithP Proof.ShiftP Proof.SetSplatP
  Proof.MulP5 Proof.ExtractP Proof.ExtractP2 Proof.SplitP.

(** r holds f of the lanes of a *)
Definition holds w R (f : Z -> Z) (a r : Z) : Prop :=
  reg R r /\ forall i, 0 <= i < R / w -> lane w i r = f (lane w i a).
Lemma holds_v1 w R f a r : wok w R = true -> holds w R f a r -> (forall x, 0 <= x < 2 ^ w -> f x = wrap w (f x)) -> r = v1 w R f a.
Proof.
  intros Hw [Hr HL] Hf. apply eq_v1; auto. intros i Hi. rewrite HL by auto. apply Hf. apply lane_range. destruct (wok_spec _ _ Hw); lia.
Qed.
Section E.
  Context (A : arch) (w : ew) (s : rsz) (HV : valid_arch A = true) (HA : avail_int A (wb w) s = true) (Hw8 : w <> W8).
  Local Notation R := (rbits s).
  Local Notation H := (holds (wb w) R).
  Lemma h_self a : reg R a -> H (fun x => x) a a. Proof. intros. split; auto. Qed.
  Lemma h_shr c f a r : 0 <= c < wb w -> H f a r -> (forall x, 0 <= x < 2 ^ wb w -> 0 <= f x < 2 ^ wb w) ->
    exists r', i_shift_r_t A false w s c r = Ok r' /\ H (fun x => Z.shiftr (f x) c) a r'.
  Proof.
    intros Hc [Hr HL] Hf. pose proof (wok_lib w s) as Hw. pose proof (wb_pos w). rewrite i_shift_r_t_ok by auto. eexists. split; [reflexivity|].
    split; [apply v1_reg; auto|]. intros i Hi. unfold shr_v. rewrite lane_v1 by auto. rewrite HL by auto.
    assert (0 <= f (lane (wb w) i a) < 2 ^ wb w) by (apply Hf; apply lane_range; lia). apply Z.mod_small.
    rewrite Z.shiftr_div_pow2 by lia. pose proof (pow2_pos c ltac:(lia)). split; [apply Z.div_pos; lia|].
    apply Z.div_lt_upper_bound; nia.
  Qed.
  Lemma h_and k m f a r : 0 <= k < 2 ^ wb w -> m = splat (wb w) R k -> H f a r ->
    exists r', i_bit_and A w s r m = Ok r' /\ H (fun x => Z.land (f x) k) a r'.
  Proof.
    intros Hk -> [Hr HL]. pose proof (wok_lib w s) as Hw. pose proof (wb_pos w). rewrite i_bit_and_ok by (auto; apply splat_reg; auto). eexists. split; [reflexivity|].
    split; [apply land_reg; [destruct s; discriminate|auto|apply splat_reg; auto]|]. intros i Hi. rewrite lane_land by lia. rewrite HL by auto.
    rewrite lane_splat_g by auto. rewrite (wrap_small _ k) by auto. reflexivity.
  Qed.
  Lemma h_add f g a x y : H f a x -> H g a y ->
    exists r', i_add A w s x y = Ok r' /\ H (fun x => wrap (wb w) (f x + g x)) a r'.
  Proof.
    intros [Hx Lx] [Hy Ly]. pose proof (wok_lib w s) as Hw. rewrite i_add_ok by auto. eexists. split; [reflexivity|].
    split; [apply v2_reg; auto|]. intros i Hi. rewrite lane_v2, Lx, Ly by auto. reflexivity.
  Qed.
  Lemma h_sub f g a x y : H f a x -> H g a y ->
    exists r', i_sub A w s x y = Ok r' /\ H (fun x => wrap (wb w) (f x - g x)) a r'.
  Proof.
    intros [Hx Lx] [Hy Ly]. pose proof (wok_lib w s) as Hw. rewrite i_sub_ok by auto. eexists. split; [reflexivity|].
    split; [apply v2_reg; auto|]. intros i Hi. rewrite lane_v2, Lx, Ly by auto. reflexivity.
  Qed.
  Lemma h_ext f g a r : H f a r -> (forall x, 0 <= x < 2 ^ wb w -> f x = g x) -> H g a r.
  Proof. intros [Hr HL] E. split; auto. intros. rewrite HL by auto. apply E. apply lane_range. pose proof (wb_pos w). lia. Qed.
  Lemma splat_k k : splat_rt A w s k = Ok (splat (wb w) R k).
  Proof. apply splat_rt_ok; auto. intros E. contradiction. Qed.

  Lemma emul_head_ok n k55 k33 k0f a : wb w = 8 * Z.of_nat n -> k55 = rep n 85 -> k33 = rep n 51 -> k0f = rep n 15 -> reg R a ->
    exists p, emul_head A w s k55 k33 k0f a = Ok p /\ H (bytes n) a p.
  Proof.
    intros En -> -> -> Ha. assert (E2 : 256 ^ Z.of_nat n = 2 ^ wb w) by (rewrite En, Z.pow_mul_r by lia; reflexivity).
    assert (Hrep : forall n m, 0 <= m < 256 -> 0 <= rep n m < 256 ^ Z.of_nat n).
    { clear. intros n m Hm. induction n as [|n IH]; [cbn; lia|]. cbn [rep]. rewrite Nat2Z.inj_succ, Z.pow_succ_r by lia. lia. }
    pose proof (Hrep n 85 ltac:(lia)) as R1. pose proof (Hrep n 51 ltac:(lia)) as R2. pose proof (Hrep n 15 ltac:(lia)) as R3. clear Hrep.
    rewrite E2 in *. unfold emul_head. rewrite !splat_k. cbn [bind].
    assert (Hwb : 8 < wb w) by (destruct w; try (exfalso; apply Hw8; reflexivity); reflexivity).
    destruct (h_shr 1 _ a a ltac:(lia) (h_self a Ha) ltac:(auto)) as (t1 & -> & T1). cbn [bind].
    destruct (h_and (rep n 85) _ _ _ _ R1 eq_refl T1) as (t2 & -> & T2). cbn [bind].
    destruct (h_sub _ _ _ _ _ (h_self a Ha) T2) as (p1 & -> & P1). cbn [bind].
    assert (P1' : H (st1 (rep n 85)) a p1).
    { eapply h_ext; [exact P1|]. intros x Hx. rewrite <- E2 in Hx. destruct (swar n x Hx) as (S1 & _). rewrite E2 in S1.
      cbv beta. apply wrap_small. exact S1. }
    destruct (h_and (rep n 51) _ _ _ _ R2 eq_refl P1') as (x1 & -> & X1). cbn [bind].
    assert (S1 : forall x, 0 <= x < 2 ^ wb w -> 0 <= st1 (rep n 85) x < 2 ^ wb w).
    { intros x Hx. rewrite <- E2 in Hx. destruct (swar n x Hx) as (Q & _). rewrite E2 in Q. exact Q. }
    destruct (h_shr 2 _ a p1 ltac:(lia) P1' S1) as (y1 & -> & Y1). cbn [bind].
    destruct (h_and (rep n 51) _ _ _ _ R2 eq_refl Y1) as (y2 & -> & Y2). cbn [bind].
    destruct (h_add _ _ _ _ _ X1 Y2) as (p2 & -> & P2). cbn [bind].
    assert (S2 : forall x, 0 <= x < 2 ^ wb w -> 0 <= st2 (rep n 51) (st1 (rep n 85) x) < 2 ^ wb w).
    { intros x Hx. rewrite <- E2 in Hx. destruct (swar n x Hx) as (_ & Q & _). rewrite E2 in Q. exact Q. }
    assert (P2' : H (fun x => st2 (rep n 51) (st1 (rep n 85) x)) a p2).
    { eapply h_ext; [exact P2|]. intros x Hx. cbv beta. apply wrap_small. apply (S2 x Hx). }
    destruct (h_shr 4 _ a p2 ltac:(lia) P2' S2) as (t4 & -> & T4). cbn [bind].
    destruct (h_add _ _ _ _ _ P2' T4) as (p3 & -> & P3). cbn [bind].
    assert (P3' : H (fun x => st3 (st2 (rep n 51) (st1 (rep n 85) x))) a p3).
    { eapply h_ext; [exact P3|]. intros x Hx. rewrite <- E2 in Hx. destruct (swar n x Hx) as (_ & _ & _ & Q & _). rewrite E2 in Q.
      cbv beta. apply wrap_small. exact Q. }
    destruct (h_and (rep n 15) _ _ _ _ R3 eq_refl P3') as (p4 & -> & P4). exists p4. split; [reflexivity|].
    eapply h_ext; [exact P4|]. intros x Hx. rewrite <- E2 in Hx. destruct (swar n x Hx) as (_ & _ & _ & _ & Q). exact Q.
  Qed.
  Lemma h_fold c f a p : 0 <= c < wb w -> H f a p -> (forall x, 0 <= x < 2 ^ wb w -> 0 <= f x < 2 ^ wb w) ->
    exists r, fold_shift A w s c p = Ok r /\ H (fun x => wrap (wb w) (up c (f x))) a r.
  Proof.
    intros Hc Hp Hf. unfold fold_shift. destruct (h_shr c _ a p Hc Hp Hf) as (t & -> & T). cbn [bind]. apply (h_add _ _ _ _ _ Hp T).
  Qed.
  Lemma h_ff f a p : H f a p -> exists r, mask_ff A w s p = Ok r /\ H (fun x => Z.land (f x) 255) a r.
  Proof.
    intros Hp. unfold mask_ff. rewrite splat_k. cbn [bind]. apply h_and; auto. destruct w; try (exfalso; apply Hw8; reflexivity); cbn [wb]; split; reflexivity || discriminate.
  Qed.
End E.
Lemma bytes_range n x : 0 <= bytes n x < 256 ^ Z.of_nat n.
Proof.
  revert x. induction n as [|n IH]; intros x; [cbn; lia|]. cbn [bytes]. rewrite Nat2Z.inj_succ, Z.pow_succ_r by lia.
  specialize (IH (x / 256)). pose proof (c8 (x mod 256)). lia.
Qed.
Definition popv w R a := v1 w R (s_popcnt w) a.
Section E2.
  Context (A : arch) (s : rsz) (HV : valid_arch A = true).
  Local Notation R := (rbits s).
  Lemma emul16_ok a : avail_int A 16 s = true -> reg R a -> emul_popcnt_u16 A s a = Ok (popv 16 R a).
  Proof.
    intros HA Ha. assert (N : W16 <> W8) by discriminate. unfold emul_popcnt_u16.
    destruct (emul_head_ok A W16 s HV HA N 2 0x5555 0x3333 0x0f0f a eq_refl eq_refl eq_refl eq_refl Ha) as (p & -> & P). cbn [bind].
    destruct (h_fold A W16 s HV HA 8 _ a p ltac:(cbn [wb]; lia) P ltac:(intros; apply (bytes_range 2))) as (q & -> & Q). cbn [bind].
    destruct (h_ff A W16 s HV HA N _ a q Q) as (r & -> & Hr). f_equal. apply holds_v1; [apply (wok_lib W16 s)| |].
    - eapply (h_ext W16); [exact Hr|]. intros x Hx. cbv beta. cbn [wb]. destruct (fin16 x) as (E1 & E2). rewrite E1, E2, csum_cnt, s_popcnt_cnt. reflexivity.
    - intros. rewrite s_popcnt_cnt. symmetry. apply wrap_small. pose proof (cnt_range (Z.to_nat 16) x).
      change (2 ^ 16) with 65536. change (Z.of_nat (Z.to_nat 16)) with 16 in *. lia.
  Qed.
  Lemma emul32_ok a : avail_int A 32 s = true -> reg R a -> emul_popcnt_u32 A s a = Ok (popv 32 R a).
  Proof.
    intros HA Ha. assert (N : W32 <> W8) by discriminate. unfold emul_popcnt_u32.
    destruct (emul_head_ok A W32 s HV HA N 4 0x55555555 0x33333333 0x0f0f0f0f a eq_refl eq_refl eq_refl eq_refl Ha) as (p & -> & P). cbn [bind].
    assert (Hc : forall x, 0 <= x < 2 ^ 32 -> s_popcnt 32 x = wrap 32 (s_popcnt 32 x)).
    { intros. rewrite s_popcnt_cnt. symmetry. apply wrap_small. pose proof (cnt_range (Z.to_nat 32) x). change (2 ^ 32) with 4294967296. change (Z.of_nat (Z.to_nat 32)) with 32 in *. lia. }
    destruct (use_sse41 A || use_neon A || use_msa A).
    - rewrite (splat_k A W32 s HV HA N). cbn [bind]. pose proof (wok_lib W32 s) as Hw. cbn [wb] in Hw.
      destruct P as [Pr PL]. rewrite i_mul_lo32_ok by (auto; apply splat_reg; auto). cbn [bind].
      change (wb W32) with 32 in *.
      rewrite (i_shift_r_t_ok A false W32) by (auto; try (apply v2_reg; auto); cbn [wb]; lia). cbn [wb]. f_equal.
      apply eq_v1; auto; [apply v1_reg; auto|]. intros i Hi. unfold shr_v. rewrite lane_v1, lane_v2, lane_splat_g, PL by auto.
      rewrite (wrap_small 32 16843009) by (vm_compute; split; [discriminate|reflexivity]). rewrite mul32, csum_cnt, s_popcnt_cnt. reflexivity.
    - destruct (h_fold A W32 s HV HA 8 _ a p ltac:(cbn [wb]; lia) P ltac:(intros; apply (bytes_range 4))) as (q & -> & Q). cbn [bind].
      destruct (h_fold A W32 s HV HA 16 _ a q ltac:(cbn [wb]; lia) Q ltac:(intros; apply wrap_range; cbn [wb]; lia)) as (q2 & -> & Q2). cbn [bind].
      destruct (h_ff A W32 s HV HA N _ a q2 Q2) as (r & -> & Hr). f_equal. apply holds_v1; [apply (wok_lib W32 s)| |exact Hc].
      eapply (h_ext W32); [exact Hr|]. intros x Hx. cbv beta. cbn [wb]. destruct (fin32 x) as (E1 & E2 & E3). rewrite E1, E2, E3, csum_cnt, s_popcnt_cnt. reflexivity.
  Qed.
  Lemma emul64_ok a : avail_int A 64 s = true -> reg R a -> emul_popcnt_u64 A s a = Ok (popv 64 R a).
  Proof.
    intros HA Ha. assert (N : W64 <> W8) by discriminate. unfold emul_popcnt_u64.
    destruct (emul_head_ok A W64 s HV HA N 8 0x5555555555555555 0x3333333333333333 0x0f0f0f0f0f0f0f0f a eq_refl eq_refl eq_refl eq_refl Ha) as (p & -> & P). cbn [bind].
    destruct (h_fold A W64 s HV HA 8 _ a p ltac:(cbn [wb]; lia) P ltac:(intros; apply (bytes_range 8))) as (q & -> & Q). cbn [bind].
    destruct (h_fold A W64 s HV HA 16 _ a q ltac:(cbn [wb]; lia) Q ltac:(intros; apply wrap_range; cbn [wb]; lia)) as (q2 & -> & Q2). cbn [bind].
    destruct (h_fold A W64 s HV HA 32 _ a q2 ltac:(cbn [wb]; lia) Q2 ltac:(intros; apply wrap_range; cbn [wb]; lia)) as (q3 & -> & Q3). cbn [bind].
    destruct (h_ff A W64 s HV HA N _ a q3 Q3) as (r & -> & Hr). f_equal. apply holds_v1; [apply (wok_lib W64 s)| |].
    - eapply (h_ext W64); [exact Hr|]. intros x Hx. cbv beta. cbn [wb]. destruct (fin64 x) as (E1 & E2 & E3 & E4). rewrite E1, E2, E3, E4, csum_cnt, s_popcnt_cnt. reflexivity.
    - intros. rewrite s_popcnt_cnt. symmetry. apply wrap_small. pose proof (cnt_range (Z.to_nat 64) x).
      change (2 ^ 64) with 18446744073709551616. change (Z.of_nat (Z.to_nat 64)) with 64 in *. lia.
  Qed.
  Lemma emul8_ok a : avail_int A 16 s = true -> reg R a -> emul_popcnt_u8 A s a = Ok (popv 8 R a).
  Proof.
    intros HA Ha. assert (N : W16 <> W8) by discriminate. unfold emul_popcnt_u8.
    destruct (emul_head_ok A W16 s HV HA N 2 0x5555 0x3333 0x0f0f a eq_refl eq_refl eq_refl eq_refl Ha) as (p & -> & Pr & PL). cbn [bind]. f_equal.
    pose proof (wok_lib W16 s) as H16. pose proof (wok_lib W8 s) as H8. cbn [wb] in *.
    apply (reg_lanes 16 R); auto; [apply v1_reg; auto|]. intros i Hi. rewrite PL by auto.
    rewrite !(lane_double 8) by lia. unfold popv.
    assert (R / 8 = 2 * (R / 16)) as ER by (destruct s; reflexivity).
    rewrite !lane_v1 by (auto; lia). cbn [bytes]. change (2 ^ 8) with 256.
    pose proof (lane_range 8 (2 * i) a ltac:(lia)) as L0. pose proof (lane_range 8 (2 * i + 1) a ltac:(lia)) as L1. change (2 ^ 8) with 256 in *.
    rewrite (Z.mul_comm (lane 8 (2 * i + 1) a)). rewrite div_lo, mod_lo by auto. rewrite (Z.mod_small (lane 8 (2 * i + 1) a)) by lia.
    rewrite !s_popcnt_cnt. pose proof (c8 (lane 8 (2 * i) a)). pose proof (c8 (lane 8 (2 * i + 1) a)). 
    change (Z.to_nat 8) with 8%nat. rewrite !(wrap_small 8 (cnt 8 _)) by (change (2 ^ 8) with 256; lia). lia.
  Qed.
End E2.
