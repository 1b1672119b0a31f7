(** Shifts by a vector of counts: the 8-bit emulations *)
From Verif Require Import Model.ShiftV Proof.CppLemmas Proof.BitwiseP Proof.MakeConstP Proof.ArithP Proof.ShiftP Proof.PopcntP Proof.BytesP Proof.MulP2 Proof.MulP5 Proof.ShiftVP Proof.ShiftVP2.

Section P.
  Variables (A : arch) (s : rsz).
  Hypotheses (HV : valid_arch A = true) (HA : avail_int A 16 s = true).
  Notation R := (rbits s).
  Definition step (m : res Z) (F : Z -> Z) : Prop := exists r, m = Ok r /\ reg R r /\ forall j, 0 <= j < R / 16 -> lane 16 j r = F j.
  Lemma Rpos : 0 < R. Proof. destruct s; cbn; lia. Qed.
  Lemma st_and a b : reg R a -> reg R b -> step (i_bit_and A W16 s a b) (fun j => Z.land (lane 16 j a) (lane 16 j b)).
  Proof. intros Ha Hb. pose proof Rpos. exists (Z.land a b). split; [apply i_bit_and_ok; auto|]. split; [apply land_reg; auto; lia|]. intros j Hj. apply lane_land; lia. Qed.
  Lemma st_or a b : reg R a -> reg R b -> step (i_bit_or A W16 s a b) (fun j => Z.lor (lane 16 j a) (lane 16 j b)).
  Proof. intros Ha Hb. pose proof Rpos. exists (Z.lor a b). split; [apply i_bit_or_ok; auto|]. split; [apply lor_reg; auto; lia|]. intros j Hj. apply lane_lor; lia. Qed.
  Lemma st_xor a b : reg R a -> reg R b -> step (i_bit_xor A W16 s a b) (fun j => Z.lxor (lane 16 j a) (lane 16 j b)).
  Proof. intros Ha Hb. pose proof Rpos. exists (Z.lxor a b). split; [apply i_bit_xor_ok; auto|]. split; [apply lxor_reg; auto; lia|]. intros j Hj. apply lane_lxor; lia. Qed.
  Lemma st_andnot a b : reg R a -> reg R b -> step (i_bit_andnot A W16 s a b) (fun j => Z.ldiff (lane 16 j a) (lane 16 j b)).
  Proof. intros Ha Hb. pose proof Rpos. exists (Z.ldiff a b). split; [apply i_bit_andnot_ok; auto|]. split; [apply ldiff_reg; auto; lia|]. intros j Hj. apply lane_ldiff; lia. Qed.
  Lemma st_konst c : 0 <= c < 65536 -> step (konst A W16 s c) (fun _ => c).
  Proof. intros Hc. exists (splat 16 R c). split; [apply konst_ok; auto|]. split; [apply splat_reg, wok16|]. intros j Hj. rewrite lane_splat by (auto using wok16). apply wrap_small. exact Hc. Qed.
  Lemma st_shl k a : 0 <= k < 16 -> reg R a -> step (i_shift_l_t A W16 s k a) (fun j => wrap 16 (Z.shiftl (lane 16 j a) k)).
  Proof. intros Hk Ha. exists (shl_v 16 R k a). split; [apply i_shift_l_t_ok; auto|]. split; [apply v1_reg, wok16|]. intros j Hj. apply lane_v1; auto using wok16. Qed.
  Lemma st_shr k a : 0 <= k < 16 -> reg R a -> step (i_shift_r_t A false W16 s k a) (fun j => wrap 16 (Z.shiftr (lane 16 j a) k)).
  Proof. intros Hk Ha. exists (shr_v false 16 R k a). split; [apply i_shift_r_t_ok; auto|]. split; [apply v1_reg, wok16|]. intros j Hj. apply lane_v1; auto using wok16. Qed.
  Lemma st_mullo a b : use_null A = false -> reg R a -> reg R b -> step (i_mul_lo16 A s a b) (fun j => wrap 16 (lane 16 j a * lane 16 j b)).
  Proof.
    intros Hn Ha Hb. exists (v2 16 R Z.mul a b). split; [apply i_mul_lo16_ok; auto; rewrite Hn; discriminate|]. split; [apply v2_reg, wok16|]. intros j Hj. apply lane_v2; auto using wok16.
  Qed.
  Lemma st_mulhi sg a b : reg R a -> reg R b -> step (i_mul_hi A sg s a b) (fun j => wrap 16 (Z.shiftr (mp sg 16 (lane 16 j a) (lane 16 j b)) 16)).
  Proof. intros Ha Hb. exists (hi_v sg R a b). split; [apply i_mul_hi_ok; auto|]. split; [apply v2_reg, wok16|]. intros j Hj. apply lane_v2; auto using wok16. Qed.
  Lemma av8 : avail_int A 8 s = true. Proof. destruct s; exact HA. Qed.
  (** permuting a table by bytes below 16 *)
  Lemma st_table l : use_ssse3 A = true -> (length l = 8 \/ length l = 16)%nat -> Forall (fun x => 0 <= x < 256) l ->
    exists t, i_make_const A W8 s l 0 = Ok t /\ forall m, reg R m -> mok R 16 m ->
      exists r, i_permute_bytes16 A s t m = Ok r /\ reg R r /\ forall i, 0 <= i < R / 8 -> lane 8 i r = cval_at l (lane 8 i m).
  Proof.
    intros Hs Hl HF. set (t := pack 8 R (fun k => cval_at l (0 + k))). pose proof av8 as H8. exists t.
    split; [rewrite i_make_const_ok by (auto; destruct Hl as [-> | ->]; lia); reflexivity|]. intros m Hm HM. exists (zb R t t m).
    assert (HP : has_permute_bytes A = true) by (unfold has_permute_bytes; rewrite Hs; destruct (use_sse2 A); reflexivity).
    assert (Ht : reg R t) by (apply pack_reg, wok8).
    split; [apply i_permute_bytes16_ok; auto|split; [apply pack_reg, wok8|]].
    intros i Hi. unfold zb. rewrite lane_pack by (auto using wok8). unfold zbyte. specialize (HM i Hi). pose proof (b8 i m) as B. destruct (Z.leb_spec 128 (lane 8 i m)); [lia|]. destruct (Z.ltb_spec (lane 8 i m) 16); [|lia].
    assert (I16 : 0 <= 16 * (i / 16) + lane 8 i m < R / 8). { assert (E : R / 8 = 16 * (R / 128)) by (destruct s; reflexivity). rewrite E in *. zl. }
    unfold t. rewrite lane_pack by (auto using wok8). rewrite Z.add_0_l, wrap_wrap. set (k := lane 8 i m) in *. clearbody k.
    assert (CV : cval_at l (16 * (i / 16) + k) = cval_at l k).
    { unfold cval_at. f_equal. f_equal. set (q := i / 16). clearbody q. destruct Hl as [-> | ->]; [change (Z.of_nat 8) with 8; replace (16 * q + k) with (k + (2 * q) * 8) by lia|change (Z.of_nat 16) with 16; replace (16 * q + k) with (k + q * 16) by lia]; apply Z.mod_add; lia. }
    rewrite CV. apply wrap_small. change (2 ^ 8) with 256. unfold cval_at. rewrite Forall_forall in HF. apply HF. apply nth_In. destruct Hl as [E | E]; rewrite E; [change (Z.of_nat 8) with 8|change (Z.of_nat 16) with 16]; zl.
  Qed.
  Lemma ev_table l k : nth (Z.to_nat (k mod Z.of_nat (length l))) l 0 = cval_at l k. Proof. reflexivity. Qed.
  Lemma low_counts c : cok 8 R c -> mok R 16 c. Proof. intros H i Hi. specialize (H i Hi). lia. Qed.
  Lemma cok16_lo c r : cok 8 R c -> (forall j, 0 <= j < R / 16 -> lane 16 j r = lane 8 (2 * j) c) -> cok 16 R r.
  Proof. intros H HE j Hj. rewrite HE by auto. specialize (H (2 * j)). rewrite n8 in H. specialize (H ltac:(lia)). lia. Qed.
  Lemma cok16_hi c r : cok 8 R c -> (forall j, 0 <= j < R / 16 -> lane 16 j r = lane 8 (2 * j + 1) c) -> cok 16 R r.
  Proof. intros H HE j Hj. rewrite HE by auto. specialize (H (2 * j + 1)). rewrite n8 in H. specialize (H ltac:(lia)). lia. Qed.
  Lemma shr8_hi a j r : 0 <= j -> lane 16 j r = wrap 16 (Z.shiftr (lane 16 j a) 8) -> lane 16 j r = lane 8 (2 * j + 1) a.
  Proof. intros Hj ->. rewrite Z.shiftr_div_pow2 by lia. change (2 ^ 8) with 256. rewrite hi8 by lia. pose proof (b8 (2 * j + 1) a). apply wrap_small. change (2 ^ 16) with 65536. lia. Qed.

  Ltac nx L := let r := fresh "r" in let E := fresh "E" in let H := fresh "H" in let F := fresh "F" in destruct L as (r & E & H & F); rewrite E; cbn [bind]; clear E.
  Lemma shl8_v16_ok a c : (forall x k, reg R x -> reg R k -> cok 16 R k -> i_shift_l_v16 A s x k = Ok (v2 16 R Z.shiftl x k)) ->
    reg R a -> reg R c -> cok 8 R c -> shl8_v16 A s a c = Ok (v2 8 R Z.shiftl a c).
  Proof.
    intros HS Ha Hc HC. unfold shl8_v16. nx (st_konst 0xff00 ltac:(lia)). nx (st_and a r Ha H). nx (st_andnot c r Hc H). nx (st_shr 8 c ltac:(lia) Hc).
    assert (L1 : forall j, 0 <= j < R / 16 -> lane 16 j r1 = lane 8 (2 * j) c) by (intros j Hj; rewrite F1, F by auto; rewrite ldiff_ff00 by apply b16; apply lo8; lia).
    assert (L2 : forall j, 0 <= j < R / 16 -> lane 16 j r2 = lane 8 (2 * j + 1) c) by (intros j Hj; apply shr8_hi; auto; lia).
    rewrite HS by (auto; apply (cok16_lo c); auto). cbn [bind]. rewrite HS by (auto; apply (cok16_hi c); auto). cbn [bind].
    set (u := v2 16 R Z.shiftl a r1). set (v := v2 16 R Z.shiftl r0 r2). assert (Hu : reg R u) by (apply v2_reg, wok16). assert (Hv : reg R v) by (apply v2_reg, wok16).
    nx (st_andnot u r Hu H). destruct (st_or r3 v H3 Hv) as (z & -> & Hz & Fz). f_equal. apply bytes_v2; auto. intros j Hj. rewrite Fz, F3, F by auto. unfold u, v. rewrite !lane_v2 by (auto using wok16).
    rewrite ldiff_ff00 by (apply (wrap_range 16); lia). rewrite L1, L2, F0, F by auto. rewrite land_ff00 by apply b16. rewrite hi8 by lia. pose proof (b8 (2 * j) c). pose proof (b8 (2 * j + 1) c).
    rewrite !Z.shiftl_mul_pow2 by lia. f_equal.
    - change 256 with (2 ^ 8). unfold wrap. rewrite <- Znumtheory.Zmod_div_mod by (try (exists 256; reflexivity); lia). rewrite Z.mul_mod by lia. change (2 ^ 8) with 256. rewrite lo8 by lia. rewrite <- (Z.mod_small (lane 8 (2 * j) a) 256) at 1 by apply b8. rewrite <- Z.mul_mod by lia. reflexivity.
    - rewrite <- Z.mul_assoc. apply wrap16_256.
  Qed.
  Lemma join16 r l h : (forall i, 0 <= i < R / 8 -> lane 8 i r = if Z.even i then l (i / 2) else h (i / 2)) -> forall j, 0 <= j < R / 16 -> lane 16 j r = l j + 256 * h j.
  Proof.
    intros H j Hj. rewrite halves by lia. pose proof n8 s. rewrite !H by lia. replace (2 * j / 2) with j by zl. replace ((2 * j + 1) / 2) with j by zl.
    replace (Z.even (2 * j)) with true by (rewrite Z.even_mul; reflexivity). replace (Z.even (2 * j + 1)) with false by (rewrite Z.add_comm, Z.even_add_mul_2; reflexivity). reflexivity.
  Qed.
  Lemma c8 k : 0 <= k < 8 -> k = 0 \/ k = 1 \/ k = 2 \/ k = 3 \/ k = 4 \/ k = 5 \/ k = 6 \/ k = 7. Proof. lia. Qed.
  Lemma tl8 k : 0 <= k < 8 -> cval_at tbl_l8 k = 2 ^ k.
  Proof. intros H. apply c8 in H. repeat (destruct H as [-> |H]; [reflexivity|]). subst k. reflexivity. Qed.
  Lemma tr8 k : 0 <= k < 8 -> cval_at tbl_r8 k = 2 ^ (7 - k).
  Proof. intros H. apply c8 in H. repeat (destruct H as [-> |H]; [reflexivity|]). subst k. reflexivity. Qed.
  Lemma ran l : forallb (fun x => (0 <=? x) && (x <? 256)) l = true -> Forall (fun x => 0 <= x < 256) l.
  Proof. intros H. apply Forall_forall. intros x Hx. rewrite forallb_forall in H. specialize (H x Hx). apply andb_true_iff in H as [H1 H2]. apply Z.leb_le in H1. apply Z.ltb_lt in H2. lia. Qed.
  Lemma pow78 k : 0 <= k < 8 -> wrap 16 (Z.shiftl (2 ^ (7 - k)) 1) = 2 ^ (8 - k).
  Proof. intros H. apply c8 in H. repeat (destruct H as [-> |H]; [reflexivity|]). subst k. reflexivity. Qed.
  Lemma shl8_mul_ok a c : use_ssse3 A = true -> use_null A = false -> reg R a -> reg R c -> cok 8 R c -> shl8_mul A s a c = Ok (v2 8 R Z.shiftl a c).
  Proof.
    intros Hs Hn Ha Hc HC. unfold shl8_mul. destruct (st_table tbl_l8 Hs ltac:(left; reflexivity) ltac:(apply ran; reflexivity)) as (t & Et & HT). rewrite Et. cbn [bind]. clear Et.
    nx (HT c Hc (low_counts c HC)). nx (st_konst 255 ltac:(lia)). nx (st_shl 8 a ltac:(lia) Ha). nx (st_and r r0 H H0). nx (st_andnot a r0 Ha H0). nx (st_shr 8 r ltac:(lia) H).
    nx (st_mullo r1 r2 Hn H1 H2). nx (st_mullo r3 r4 Hn H3 H4). nx (st_shr 8 r5 ltac:(lia) H5). destruct (st_or r7 r6 H7 H6) as (z & -> & Hz & Fz). f_equal. apply bytes_v2; auto. intros j Hj.
    pose proof (n8 s) as N8. pose proof (HC (2 * j) ltac:(lia)) as C0. pose proof (HC (2 * j + 1) ltac:(lia)) as C1. pose proof (b8 (2 * j) c) as B0. pose proof (b8 (2 * j + 1) c) as B1.
    rewrite Fz, F7, F6, F5 by auto. rewrite (shr8_hi r j r4) by (auto; lia). rewrite F3, F2, F1, F0 by auto. rewrite land_ff, lo8, ldiff_ff, hi8 by lia. rewrite !F by lia. rewrite !tl8 by lia. rewrite shl8_16. rewrite !Z.shiftl_mul_pow2 by lia. rewrite Z.shiftr_div_pow2 by lia. change (2 ^ 8) with 256.
    f_equal; [|rewrite <- Z.mul_assoc; apply wrap16_256].
    rewrite <- Z.mul_assoc, wrap16_256. rewrite Z.mul_comm, Z.div_mul by lia. rewrite (wrap_small 16) by (pose proof (wrap_range 8 (wrap 8 (lane 16 j a) * 2 ^ lane 8 (2 * j) c) ltac:(lia)); change (2 ^ 16) with 65536; change (2 ^ 8) with 256 in *; lia).
    rewrite <- lo8 by lia. rewrite <- (lo8 j a) by lia. reflexivity.
  Qed.
  Lemma shr_small x k : 0 <= x < 256 -> 0 <= k -> 0 <= Z.shiftr x k < 256.
  Proof. intros Hx Hk. rewrite Z.shiftr_div_pow2 by lia. pose proof (pow_pos8 k Hk). split; [apply Z.div_pos; lia|]. apply Z.div_lt_upper_bound; nia. Qed.
  Lemma shr_div x k : 0 <= k -> Z.shiftr x k / 256 = Z.shiftr (x / 256) k.
  Proof. intros Hk. pose proof (pow_pos8 k Hk). rewrite !Z.shiftr_div_pow2 by lia. rewrite !Z.div_div by lia. f_equal. lia. Qed.
  Lemma shr8_v16_u_ok a c : (forall x k, reg R x -> reg R k -> cok 16 R k -> i_shift_r_v_u16 A s x k = Ok (v2 16 R (fr false 16) x k)) ->
    reg R a -> reg R c -> cok 8 R c -> shr8_v16_u A s a c = Ok (v2 8 R (fr false 8) a c).
  Proof.
    intros HS Ha Hc HC. unfold shr8_v16_u. nx (st_konst 255 ltac:(lia)). nx (st_and a r Ha H). nx (st_and c r Hc H). nx (st_shr 8 c ltac:(lia) Hc).
    assert (L1 : forall j, 0 <= j < R / 16 -> lane 16 j r1 = lane 8 (2 * j) c) by (intros j Hj; rewrite F1, F by auto; rewrite land_ff; apply lo8; lia).
    assert (L2 : forall j, 0 <= j < R / 16 -> lane 16 j r2 = lane 8 (2 * j + 1) c) by (intros j Hj; apply shr8_hi; auto; lia).
    rewrite HS by (auto; apply (cok16_lo c); auto). cbn [bind]. rewrite HS by (auto; apply (cok16_hi c); auto). cbn [bind].
    set (u := v2 16 R (fr false 16) r0 r1). set (v := v2 16 R (fr false 16) a r2). assert (Hu : reg R u) by (apply v2_reg, wok16). assert (Hv : reg R v) by (apply v2_reg, wok16).
    nx (st_andnot v r Hv H). destruct (st_or u r3 Hu H3) as (z & -> & Hz & Fz). f_equal. apply bytes_v2; auto. intros j Hj. rewrite Fz, F3, F by auto. unfold u, v. rewrite !lane_v2 by (auto using wok16).
    rewrite L1, L2, F0, F by auto. rewrite land_ff, lo8, ldiff_ff by lia. unfold fr. pose proof (b8 (2 * j) c). pose proof (b8 (2 * j + 1) c). pose proof (shr_small (lane 8 (2 * j) a) (lane 8 (2 * j) c) (b8 _ _) ltac:(lia)). pose proof (shr_small (lane 8 (2 * j + 1) a) (lane 8 (2 * j + 1) c) (b8 _ _) ltac:(lia)).
    f_equal; [rewrite (wrap_small 16), (wrap_small 8) by (change (2 ^ 16) with 65536; change (2 ^ 8) with 256; lia); reflexivity|]. rewrite wrap8_div, shr_div, hi8 by lia. reflexivity.
  Qed.
  Lemma mul_shr x k : 0 <= k < 8 -> Z.shiftr (256 * x * 2 ^ (8 - k)) 16 = Z.shiftr x k.
  Proof.
    intros Hk. rewrite !Z.shiftr_div_pow2 by lia. pose proof (pow_pos8 k ltac:(lia)). pose proof (pow_pos8 (8 - k) ltac:(lia)).
    assert (E : 2 ^ 16 = (256 * 2 ^ (8 - k)) * 2 ^ k) by (rewrite <- Z.mul_assoc, <- Z.pow_add_r by lia; replace (8 - k + k) with 8 by lia; reflexivity). rewrite E.
    replace (256 * x * 2 ^ (8 - k)) with (256 * 2 ^ (8 - k) * x) by lia. rewrite Z.div_mul_cancel_l by lia. reflexivity.
  Qed.
  Lemma shr8_mul_u_ok a c : use_ssse3 A = true -> reg R a -> reg R c -> cok 8 R c -> shr8_mul_u A s a c = Ok (v2 8 R (fr false 8) a c).
  Proof.
    intros Hs Ha Hc HC. unfold shr8_mul_u. destruct (st_table tbl_r8 Hs ltac:(right; reflexivity) ltac:(apply ran; reflexivity)) as (t & Et & HT). rewrite Et. cbn [bind]. clear Et.
    nx (HT c Hc (low_counts c HC)). nx (st_konst 255 ltac:(lia)). nx (st_shl 8 a ltac:(lia) Ha). nx (st_and r r0 H H0). nx (st_shl 1 r2 ltac:(lia) H2). nx (st_andnot a r0 Ha H0). nx (st_shr 8 r ltac:(lia) H). nx (st_shl 1 r5 ltac:(lia) H5).
    nx (st_mulhi false r1 r3 H1 H3). nx (st_mulhi false r4 r6 H4 H6). nx (st_shl 8 r8 ltac:(lia) H8). destruct (st_or r7 r9 H7 H9) as (z & -> & Hz & Fz). f_equal. apply bytes_v2; auto. intros j Hj.
    pose proof (n8 s) as N8. pose proof (HC (2 * j) ltac:(lia)) as C0. pose proof (HC (2 * j + 1) ltac:(lia)) as C1. pose proof (b8 (2 * j) c) as B0. pose proof (b8 (2 * j + 1) c) as B1.
    rewrite Fz, F9, F8, F7, F6 by auto. rewrite (shr8_hi r j r5) by (auto; lia). rewrite F4, F3, F2, F1, F0 by auto. rewrite land_ff, lo8, ldiff_ff, hi8 by lia. rewrite !F by lia. rewrite !tr8 by lia. rewrite !pow78 by lia. rewrite (shl8_16 (lane 16 j a)). replace (wrap 8 (lane 16 j a)) with (lane 8 (2 * j) a) by (symmetry; apply lo8; lia). unfold mp, fr. rewrite !mul_shr by lia.
    pose proof (shr_small (lane 8 (2 * j) a) (lane 8 (2 * j) c) (b8 _ _) ltac:(lia)). pose proof (shr_small (lane 8 (2 * j + 1) a) (lane 8 (2 * j + 1) c) (b8 _ _) ltac:(lia)).
    rewrite !(wrap_small 16 (Z.shiftr _ _)) by (change (2 ^ 16) with 65536; lia). rewrite shl8_16. rewrite (wrap_small 8 (Z.shiftr (lane 8 (2 * j) a) _)) by (change (2 ^ 8) with 256; lia). reflexivity.
  Qed.
End P.
