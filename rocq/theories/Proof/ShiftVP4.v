(** Shifts by a vector of counts: the signed 8-bit and the 16-bit emulations *)
From Verif Require Import Model.ShiftV Proof.CppLemmas Proof.BitwiseP Proof.MakeConstP Proof.MaskP Proof.CmpP Proof.BlendP Proof.ArithP Proof.ShiftP Proof.PopcntP Proof.BytesP Proof.MulP2 Proof.MulP5 Proof.ShiftVP Proof.ShiftVP2 Proof.ShiftVP3.

Lemma sgn16_256 x : 0 <= x < 256 -> sgn 16 (256 * x) = 256 * sgn 8 x.
Proof. intros Hx. pose proof (sgn16_hi 0 x ltac:(lia) Hx) as E. rewrite !Z.add_0_l in E. exact E. Qed.
Lemma sgn16_div x : 0 <= x < 65536 -> sgn 16 x / 256 = sgn 8 (x / 256).
Proof.
  intros Hx. rewrite (Z.div_mod x 256) at 1 by lia. rewrite Z.add_comm. rewrite sgn16_hi by zl. set (y := sgn 8 (x / 256)). rewrite Z.mul_comm, Z.div_add by lia. rewrite Z.div_small by zl. lia.
Qed.
Lemma sgn16_pow k : 0 <= k < 8 -> sgn 16 (2 ^ (8 - k)) = 2 ^ (8 - k).
Proof. intros H. apply c8 in H. repeat (destruct H as [-> |H]; [reflexivity|]). subst k. reflexivity. Qed.
Lemma wrap8_16 x : wrap 8 (wrap 16 x) = wrap 8 x.
Proof. unfold wrap. symmetry. apply Znumtheory.Zmod_div_mod; try lia. exists 256. reflexivity. Qed.
Section P.
  Variables (A : arch) (s : rsz).
  Hypotheses (HV : valid_arch A = true) (HA : avail_int A 16 s = true).
  Notation R := (rbits s).
  Ltac nx L := let r := fresh "r" in let E := fresh "E" in let H := fresh "H" in let F := fresh "F" in destruct L as (r & E & H & F); rewrite E; cbn [bind]; clear E.
  Lemma lo_w j a : 0 <= j -> wrap 8 (lane 16 j a) = lane 8 (2 * j) a. Proof. intros. apply lo8; lia. Qed.
  Lemma shr8_v16_s_ok a c : (forall x k, reg R x -> reg R k -> cok 16 R k -> i_shift_r_v_i16 A s x k = Ok (v2 16 R (fr true 16) x k)) ->
    reg R a -> reg R c -> cok 8 R c -> shr8_v16_s A s a c = Ok (v2 8 R (fr true 8) a c).
  Proof.
    intros HS Ha Hc HC. unfold shr8_v16_s. nx (st_konst A s HV HA 255 ltac:(lia)). nx (st_shl A s HV HA 8 a ltac:(lia) Ha). nx (st_and A s HV HA c r Hc H). nx (st_shr A s HV HA 8 c ltac:(lia) Hc).
    assert (L1 : forall j, 0 <= j < R / 16 -> lane 16 j r1 = lane 8 (2 * j) c) by (intros j Hj; rewrite F1, F by auto; rewrite land_ff; apply lo8; lia).
    assert (L2 : forall j, 0 <= j < R / 16 -> lane 16 j r2 = lane 8 (2 * j + 1) c) by (intros j Hj; apply shr8_hi; auto; lia).
    rewrite HS by (auto; apply (cok16_lo s c); auto). cbn [bind]. rewrite HS by (auto; apply (cok16_hi s c); auto). cbn [bind].
    set (u := v2 16 R (fr true 16) r0 r1). set (v := v2 16 R (fr true 16) a r2). assert (Hu : reg R u) by (apply v2_reg, wok16). assert (Hv : reg R v) by (apply v2_reg, wok16).
    nx (st_shr A s HV HA 8 u ltac:(lia) Hu). nx (st_andnot A s HV HA v r Hv H). destruct (st_or A s HV HA r3 r4 H3 H4) as (z & -> & Hz & Fz). f_equal. apply bytes_v2; auto. intros j Hj. rewrite Fz, F4, F3, F by auto. unfold u, v. rewrite !lane_v2 by (auto using wok16).
    rewrite L1, L2, F0 by auto. rewrite ldiff_ff, shl8_16, lo_w by lia. unfold fr. pose proof (b8 (2 * j) c). pose proof (b8 (2 * j + 1) c). rewrite sgn16_256 by apply b8.
    f_equal; [|rewrite wrap8_div, shr_div, sgn16_div, hi8 by (try apply b16; lia); reflexivity].
    rewrite (Z.shiftr_div_pow2 _ 8) by lia. change (2 ^ 8) with 256. rewrite wrap8_div, shr_div by lia. rewrite (Z.mul_comm 256), Z.div_mul by lia. apply wrap_small. set (y := Z.shiftr _ _). pose proof (wrap_range 8 y ltac:(lia)). change (2 ^ 8) with 256 in *. change (2 ^ 16) with 65536. lia.
  Qed.
  Lemma shr8_mul_s_ok a c : use_ssse3 A = true -> reg R a -> reg R c -> cok 8 R c -> shr8_mul_s A s a c = Ok (v2 8 R (fr true 8) a c).
  Proof.
    intros Hs Ha Hc HC. unfold shr8_mul_s. destruct (st_table A s HV HA tbl_r8 Hs ltac:(right; reflexivity) ltac:(apply ran; reflexivity)) as (t & Et & HT). rewrite Et. cbn [bind]. clear Et.
    nx (HT c Hc (low_counts s c HC)). nx (st_konst A s HV HA 255 ltac:(lia)). nx (st_shl A s HV HA 8 a ltac:(lia) Ha). nx (st_and A s HV HA r r0 H H0). nx (st_shl A s HV HA 1 r2 ltac:(lia) H2). nx (st_andnot A s HV HA a r0 Ha H0). nx (st_shr A s HV HA 8 r ltac:(lia) H). nx (st_shl A s HV HA 1 r5 ltac:(lia) H5).
    nx (st_mulhi A s HV HA true r1 r3 H1 H3). nx (st_mulhi A s HV HA true r4 r6 H4 H6). nx (st_shl A s HV HA 8 r8 ltac:(lia) H8). nx (st_and A s HV HA r7 r0 H7 H0). destruct (st_or A s HV HA r10 r9 H10 H9) as (z & -> & Hz & Fz). f_equal. apply bytes_v2; auto. intros j Hj.
    pose proof (n8 s) as N8. pose proof (HC (2 * j) ltac:(lia)) as C0. pose proof (HC (2 * j + 1) ltac:(lia)) as C1. pose proof (b8 (2 * j) c) as B0. pose proof (b8 (2 * j + 1) c) as B1.
    rewrite Fz, F10, F9, F8, F7, F6 by auto. rewrite (shr8_hi r j r5) by (auto; lia). rewrite F4, F3, F2, F1, F0 by auto. rewrite !land_ff, lo8, ldiff_ff, hi8 by lia. rewrite !F by lia. rewrite !tr8 by lia. rewrite !pow78 by lia. rewrite (shl8_16 (lane 16 j a)), lo_w by lia. unfold mp, fr.
    rewrite !sgn16_pow by lia. rewrite !sgn16_256 by apply b8. rewrite !mul_shr by lia. rewrite shl8_16, wrap8_16. f_equal. change 256 with (2 ^ 8). fold (wrap 8 (wrap 16 (Z.shiftr (sgn 8 (lane 8 (2 * j) a)) (lane 8 (2 * j) c)))). apply wrap8_16.
  Qed.
  (** ---------- 16 bits ---------- *)
  Lemma c16 k : 0 <= k < 16 -> k = 0 \/ k = 1 \/ k = 2 \/ k = 3 \/ k = 4 \/ k = 5 \/ k = 6 \/ k = 7 \/ k = 8 \/ k = 9 \/ k = 10 \/ k = 11 \/ k = 12 \/ k = 13 \/ k = 14 \/ k = 15. Proof. lia. Qed.
  (** the selector made of two copies of the count with a bit flipped *)
  Lemma qsel c t q r0 r1 : 0 <= t < 65536 -> cok 16 R c -> reg R c ->
    (forall j, 0 <= j < R / 16 -> lane 16 j r0 = wrap 16 (Z.shiftl (lane 16 j c) 8)) -> (forall j, 0 <= j < R / 16 -> lane 16 j r1 = Z.lor (lane 16 j c) (lane 16 j r0)) ->
    (forall j, 0 <= j < R / 16 -> lane 16 j q = Z.lxor (lane 16 j r1) t) ->
    forall j, 0 <= j < R / 16 -> lane 16 j q = Z.lxor (lane 16 j c + 256 * lane 16 j c) t.
  Proof.
    intros Ht HC Hc F0 F1 FQ j Hj. rewrite FQ, F1, F0 by auto. specialize (HC j Hj). pose proof (b16 j c). rewrite shl8_16. rewrite (wrap_small 8) by (change (2 ^ 8) with 256; lia). rewrite lor_join by lia. reflexivity.
  Qed.
  Lemma q_bytes q f : (forall j, 0 <= j < R / 16 -> lane 16 j q = f j) -> (forall i, 0 <= i < R / 8 -> lane 8 i q = if Z.even i then f (i / 2) mod 256 else f (i / 2) / 256).
  Proof.
    intros H i Hi. rewrite n8 in Hi. assert (Hj : 0 <= i / 2 < R / 16) by zl. rewrite <- H by auto. destruct (Z.even i) eqn:E.
    - rewrite lo8 by lia. f_equal. rewrite (Z.div_mod i 2) at 1 by lia. rewrite Zmod_even, E. lia.
    - rewrite hi8 by lia. f_equal. rewrite (Z.div_mod i 2) at 1 by lia. rewrite Zmod_even, E. lia.
  Qed.
  Definition two8 (l : list Z) (t k : Z) : Z := cval_at l (Z.lxor (k + 256 * k) t mod 256) + 256 * cval_at l (Z.lxor (k + 256 * k) t / 256).
  (** the multiplier looked up *)
  Lemma looked l t m c q : (forall k, 0 <= k < 16 -> Z.lxor (k + 256 * k) t mod 256 < 16 /\ Z.lxor (k + 256 * k) t / 256 < 16) -> cok 16 R c ->
    (forall j, 0 <= j < R / 16 -> lane 16 j q = Z.lxor (lane 16 j c + 256 * lane 16 j c) t) ->
    mok R 16 q /\ ((forall i, 0 <= i < R / 8 -> lane 8 i m = cval_at l (lane 8 i q)) -> forall j, 0 <= j < R / 16 -> lane 16 j m = two8 l t (lane 16 j c)).
  Proof.
    intros HK HC HQ. pose proof (q_bytes q _ HQ) as HB. split.
    - intros i Hi. rewrite HB by auto. rewrite n8 in Hi. assert (Hj : 0 <= i / 2 < R / 16) by zl. specialize (HC _ Hj). pose proof (b16 (i / 2) c). destruct (HK (lane 16 (i / 2) c) ltac:(lia)). destruct (Z.even i); auto.
    - intros HM j Hj. unfold two8. apply (join16 s m (fun j => cval_at l (Z.lxor (lane 16 j c + 256 * lane 16 j c) t mod 256)) (fun j => cval_at l (Z.lxor (lane 16 j c + 256 * lane 16 j c) t / 256))); auto.
      intros i Hi. rewrite HM, HB by auto. destruct (Z.even i); reflexivity.
  Qed.
  Ltac en16 H := apply c16 in H; repeat (destruct H as [-> |H]; [vm_compute; auto; fail|]); subst; vm_compute; auto; fail.
  Lemma two_l k : 0 <= k < 16 -> two8 tbl_l16 0x0800 k = 2 ^ k.
  Proof. intros H. apply c16 in H. repeat (destruct H as [-> |H]; [reflexivity|]). subst k. reflexivity. Qed.
  Lemma two_r k : 0 < k < 16 -> two8 tbl_r16 0x0008 k = 2 ^ (16 - k).
  Proof. intros H. assert (H' : 0 <= k < 16) by lia. apply c16 in H'. destruct H' as [-> |H']; [lia|]. repeat (destruct H' as [-> |H']; [reflexivity|]). subst k. reflexivity. Qed.
  Lemma sel_l k : 0 <= k < 16 -> Z.lxor (k + 256 * k) 0x0800 mod 256 < 16 /\ Z.lxor (k + 256 * k) 0x0800 / 256 < 16.
  Proof. intros H. apply c16 in H. repeat (destruct H as [-> |H]; [split; reflexivity|]). subst k. split; reflexivity. Qed.
  Lemma sel_r k : 0 <= k < 16 -> Z.lxor (k + 256 * k) 0x0008 mod 256 < 16 /\ Z.lxor (k + 256 * k) 0x0008 / 256 < 16.
  Proof. intros H. apply c16 in H. repeat (destruct H as [-> |H]; [split; reflexivity|]). subst k. split; reflexivity. Qed.
  Lemma shl16_mul_ok a c : use_ssse3 A = true -> use_null A = false -> reg R a -> reg R c -> cok 16 R c -> shl16_mul A s a c = Ok (v2 16 R Z.shiftl a c).
  Proof.
    intros Hs Hn Ha Hc HC. unfold shl16_mul. destruct (st_table A s HV HA tbl_l16 Hs ltac:(right; reflexivity) ltac:(apply ran; reflexivity)) as (t & Et & HT). rewrite Et. cbn [bind]. clear Et.
    nx (st_shl A s HV HA 8 c ltac:(lia) Hc). nx (st_or A s HV HA c r Hc H). nx (st_konst A s HV HA 0x0800 ltac:(lia)). nx (st_xor A s HV HA r0 r1 H0 H1).
    assert (FQ : forall j, 0 <= j < R / 16 -> lane 16 j r2 = Z.lxor (lane 16 j r0) 0x0800) by (intros j Hj; rewrite F2, F1 by auto; reflexivity).
    pose proof (qsel c 0x0800 r2 r r0 ltac:(lia) HC Hc F F0 FQ) as Q. destruct (looked tbl_l16 0x0800 0 c r2 sel_l HC Q) as (MO & _).
    destruct (HT r2 H2 MO) as (m & Em & Hm & Fm). rewrite Em. cbn [bind]. clear Em. destruct (looked tbl_l16 0x0800 m c r2 sel_l HC Q) as (_ & LM). specialize (LM Fm).
    destruct (st_mullo A s HV HA a m Hn Ha Hm) as (z & -> & Hz & Fz). f_equal. apply eq_v2; auto using wok16. intros j Hj. rewrite Fz, LM by auto. specialize (HC j Hj). pose proof (b16 j c). rewrite two_l by lia. rewrite Z.shiftl_mul_pow2 by lia. reflexivity.
  Qed.
  Lemma shr16_mul_ok a c : use_ssse3 A = true -> reg R a -> reg R c -> cok 16 R c -> shr16_mul A s a c = Ok (v2 16 R (fr false 16) a c).
  Proof.
    intros Hs Ha Hc HC. unfold shr16_mul. nx (st_konst A s HV HA 0 ltac:(lia)).
    pose proof (i_cmp_eq_ok A HV W16 s c r HA Hc H) as E1. apply Rok_ex in E1 as (m1 & -> & M1). cbn [bind].
    nx (st_konst A s HV HA 15 ltac:(lia)).
    pose proof (i_cmp_gt_ok A HV false W16 s c r0 HA Hc H0 eq_refl) as E2. apply Rok_ex in E2 as (m2 & -> & M2). cbn [bind].
    destruct (st_table A s HV HA tbl_r16 Hs ltac:(right; reflexivity) ltac:(apply ran; reflexivity)) as (t & Et & HT). rewrite Et. cbn [bind]. clear Et.
    nx (st_shl A s HV HA 8 c ltac:(lia) Hc). nx (st_or A s HV HA c r1 Hc H1). nx (st_konst A s HV HA 0x0008 ltac:(lia)). nx (st_xor A s HV HA r2 r3 H2 H3).
    assert (FQ : forall j, 0 <= j < R / 16 -> lane 16 j r4 = Z.lxor (lane 16 j r2) 0x0008) by (intros j Hj; rewrite F4, F3 by auto; reflexivity).
    pose proof (qsel c 0x0008 r4 r1 r2 ltac:(lia) HC Hc F1 F2 FQ) as Q. destruct (looked tbl_r16 0x0008 0 c r4 sel_r HC Q) as (MO & _).
    destruct (HT r4 H4 MO) as (m & Em & Hm & Fm). rewrite Em. cbn [bind]. clear Em. destruct (looked tbl_r16 0x0008 m c r4 sel_r HC Q) as (_ & LM). specialize (LM Fm).
    nx (st_mulhi A s HV HA false a m Ha Hm). unfold i_blend_m. rewrite (sel_m_ok A W16 s HV HA (i_blend A W16 s) (fun x y p Hx Hy => i_blend_ok A W16 s HV HA x y p Hx Hy) true a r5 m1 _ Ha H5 M1). cbn [bind].
    set (b := pack (wb W16) R _). assert (Hb : reg R b) by (apply pack_reg, wok16). rewrite (i_bit_andnot_vm_ok A W16 s HV HA b m2 _ Hb M2). f_equal. cbn [wb lt_of].
    apply eq_v2; [apply wok16|apply pack_reg, wok16|]. intros j Hj. rewrite lane_pack by (auto using wok16). specialize (HC j Hj). pose proof (b16 j c) as BC. pose proof (b16 j a) as BA. rewrite F0 by auto. destruct (Z.ltb_spec 15 (lane 16 j c)); [lia|].
    unfold b. cbn [wb]. rewrite lane_pack by (auto using wok16). rewrite wrap_wrap. rewrite F, F5, LM by auto. unfold fr, mp. destruct (Z.eqb_spec (lane 16 j c) 0) as [-> |N].
    { rewrite Z.shiftr_0_r. reflexivity. }
    rewrite two_r by lia. rewrite wrap_wrap. f_equal. set (k := lane 16 j c) in *. clearbody k. rewrite !Z.shiftr_div_pow2 by lia. pose proof (pow_pos8 k ltac:(lia)). pose proof (pow_pos8 (16 - k) ltac:(lia)).
    assert (E : 2 ^ 16 = 2 ^ k * 2 ^ (16 - k)) by (rewrite <- Z.pow_add_r by lia; f_equal; lia). rewrite E. rewrite Z.div_mul_cancel_r by lia. reflexivity.
  Qed.
End P.
