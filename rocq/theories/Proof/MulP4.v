From Verif Require Export Proof.MulP3 Proof.UnzipP.

Lemma cv2_pair A w f a b x y : valid_arch A = true -> w12 w -> use_avx2 A = false ->
  reg 128 x -> reg 128 y -> prods w 128 f a b x y ->
  cv2 w (2 * w) R128 (vreg A (2 * w) (rbits R128 * (2 * w) / w)) f (per A w (2 * w) R128) a b (Ok [x; y]).
Proof.
  intros HV Hw H2 Hx Hy HP.
  assert ([x; y] = combine2 A (2 * w) R128 x y) as -> by (unfold combine2, avail_int; rewrite H2; reflexivity).
  apply cv2_combine; auto.
Qed.
Lemma vmull_reg sg w a b : w12 w -> reg 128 (vmull sg w a b).
Proof. intros Hw. destruct Hw as [-> | ->], sg; apply pack_reg; reflexivity. Qed.
Lemma mule_reg sg w a b : w12 w -> reg 128 (vec_mule sg w a b).
Proof. intros Hw. destruct Hw as [-> | ->], sg; apply pack_reg; reflexivity. Qed.
Lemma mulo_reg sg w a b : w12 w -> reg 128 (vec_mulo sg w a b).
Proof. intros Hw. destruct Hw as [-> | ->], sg; apply pack_reg; reflexivity. Qed.
Lemma mulhi_reg sg s a b : reg (rbits s) (mm_mulhi sg (rbits s) a b).
Proof. rewrite mulhi_v2. apply v2_reg, wok16s. Qed.
Lemma lsh_reg16 s n L e : (n = 8) -> reg (rbits s) (lsh 16 (rbits s) n L e).
Proof. intros ->. apply pack_reg. apply wok16s. Qed.
Lemma via_zip_ok A sg s a b as_ bs : valid_arch A = true -> avail_int A 16 s = true ->
  (forall (hi : bool) i, 0 <= i < rbits s / 32 ->
     lane 16 (zk hi i) as_ = lane 16 ((if hi then rbits s / 32 else 0) + i) a /\
     lane 16 (zk hi i) bs = lane 16 ((if hi then rbits s / 32 else 0) + i) b) ->
  cv2 16 32 s (vreg A 32 (rbits s * 32 / 16)) (s_mull sg 16) (per A 16 32 s) a b
   (let* v := zip_combine A I16 16 s (mm_mullo 16 (rbits s) as_ bs) (mm_mulhi sg (rbits s) as_ bs) in
    bit_cast A (TInt W16) (TInt W32) (2 * rbits s) v).
Proof.
  intros HV HA HK. unfold zip_combine.
  rewrite !i_zip_ok; auto; try (apply mulhi_reg); try (apply v2_reg, wok16s).
  cbn [bind]. apply cv2_cast; auto; try (apply pack_reg, wok16s). apply zip_prods; auto.
Qed.
Lemma zk128 (hi : bool) i x : 0 <= i < 4 -> lane 16 (zk hi i) x = lane 16 ((if hi then 4 else 0) + i) x.
Proof. intros Hi. f_equal. unfold zk. rewrite Z.div_small, Z.mod_small by lia. lia. Qed.

Lemma vreg_128only A w T : valid_arch A = true -> use_avx2 A = false -> vreg A w T = R128.
Proof.
  intros HV HX. unfold vreg, fast_int. destruct (rconf_ok _ HV) as [? ? E|? ? E|? ? E|? ? E]; rewrite HX in E; try discriminate E.
  rw_flags. destruct (T <=? 128), (w <=? 16); reflexivity.
Qed.
Lemma ext16_pair A sg a : valid_arch A = true -> use_avx2 A = false -> reg 128 a ->
  cv 16 32 R128 R128 (s_extend sg 16 32) 2 a (i_ext_16_32 A sg R128 a).
Proof.
  intros HV HX Ha. pose proof (i_ext_16_32_ok A sg R128 a HV eq_refl Ha) as C. unfold per, vlen in C. rewrite !vreg_128only in C by auto. exact C.
Qed.
Lemma ext32_pair A sg a : valid_arch A = true -> use_avx2 A = false -> reg 128 a ->
  cv 32 64 R128 R128 (s_extend sg 32 64) 2 a (i_ext_32_64 A sg R128 a).
Proof.
  intros HV HX Ha. pose proof (i_ext_32_64_ok A sg R128 a HV eq_refl Ha) as C. unfold per, vlen in C. rewrite !vreg_128only in C by auto. exact C.
Qed.
Lemma i_mull16_ok A sg s a b : valid_arch A = true -> avail_int A 16 s = true -> reg (rbits s) a -> reg (rbits s) b ->
  cv2 16 32 s (vreg A 32 (rbits s * 32 / 16)) (s_mull sg 16) (per A 16 32 s) a b (i_mull16 A sg s a b).
Proof.
  intros HV HA Ha Hb. assert (w12 16) as H16 by (left; reflexivity).
  unfold i_mull16. destruct s; cbv zeta.
  - destruct (use_sse2 A) eqn:E2.
    { assert (use_null A = false) as -> by (destruct (use_null A) eqn:?; auto; vimp HV).
      apply (via_zip_ok A sg R128); auto. intros. rewrite !zk128 by auto. split; reflexivity. }
    assert (use_avx2 A = false) as HX by (destruct (use_avx2 A) eqn:?; auto; vimp HV).
    destruct (use_null A) eqn:EN.
    { destruct (null_mull_ok sg 16 a b H16) as (x & y & E & Rx & Ry & P). change (2 * 16) with 32 in E. rewrite E.
      apply (cv2_pair A 16); auto. }
    destruct (use_neon A) eqn:Ene.
    { apply (cv2_pair A 16); auto using vmull_reg. apply (vmull_prods sg 16); auto. }
    destruct (use_altivec A) eqn:EA.
    { unfold zip_combine. rewrite !i_zip_ok by (auto using mule_reg, mulo_reg). cbn [bind].
      apply (cv2_combine A 16 R128); auto; try (apply pack_reg; reflexivity).
      apply (evenodd_prods sg 16 4); auto. }
    destruct (use_msa A) eqn:EM; [|fam HV; vimp HV].
    destruct (msa_prods sg 16 i_ext_16_32 A a b) as (x & y & E & Rx & Ry & P); auto.
    + apply ext16_pair; auto.
    + apply ext16_pair; auto.
    + change (2 * 16) with 32 in E. rewrite E. apply (cv2_pair A 16); auto.
  - cbn [avail_int] in HA. rewrite HA. apply (via_zip_ok A sg R256); auto.
    intros hi i Hi. split; apply (perm_lane16 R256); auto; intros h g Hg; apply perm256_ok; exact Hg.
  - assert (use_avx512bw A = true) as HB by exact HA. rewrite HB.
    assert (use_avx512f A = true) as HF by (destruct (use_avx512f A) eqn:?; auto; vimp HV).
    rewrite (i_make_const_ok A W64 R512) by first [assumption|exact HF|cbn; lia]. cbn [bind].
    apply (via_zip_ok A sg R512); auto.
    intros hi i Hi. split; apply (perm_lane16 R512); auto; intros h g Hg; apply perm512_ok; exact Hg.
Qed.

(** ------------ 32 bits ------------ *)
Lemma mul32_v2 sg R a b : mm_mul32 sg R a b = v2 64 R (fun x y => if sg then sgn 32 x * sgn 32 y else wrap 32 x * wrap 32 y) a b.
Proof. destruct sg; reflexivity. Qed.
Lemma lane64_lo x i : 0 <= i -> wrap 32 (lane 64 i x) = lane 32 (2 * i) x.
Proof.
  intros Hi. change 64 with (32 * 2). rewrite lane_double by lia. unfold wrap.
  first [rewrite Z.mod_add by lia|rewrite (Z.mul_comm (2 ^ 32)), Z.mod_add by lia]. apply Z.mod_small. apply lane_range. lia.
Qed.
Lemma sgn_of_wrap w x : 0 < w -> sgn w (wrap w x) = sgn w x.
Proof. intros Hw. unfold sgn, wrap. rewrite Z.mod_mod by (pose proof (pow2_pos w ltac:(lia)); lia). reflexivity. Qed.
Lemma mul32_lane sg R a b i : wok 64 R = true -> 0 <= i < R / 64 ->
  lane 64 i (mm_mul32 sg R a b) = s_mull sg 32 (lane 32 (2 * i) a) (lane 32 (2 * i) b).
Proof.
  intros HW Hi. rewrite mul32_v2, lane_v2 by auto. rewrite <- !lane64_lo by lia.
  change 64 with (2 * 32) at 1. rewrite <- (s_mull_wrap sg 32) by (try lia; apply wrap_range; lia).
  f_equal. unfold mp. destruct sg; [|reflexivity]. rewrite !sgn_of_wrap by lia. reflexivity.
Qed.
Lemma zip4_dup (hi : bool) a i : 0 <= i < 2 -> lane 32 (2 * i) (lsh 32 128 4 (p_zip 4 hi) [a; a]) = lane 32 ((if hi then 2 else 0) + i) a.
Proof.
  intros Hi. assert (i = 0 \/ i = 1) as [-> | ->] by lia; unfold lsh; rewrite lane_pack by (try reflexivity; change (128 / 32) with 4; lia); destruct hi;
  cbv -[wrap lane]; apply wrap_lane.
Qed.
Lemma wrap_s_extend sg u : 0 <= u < 2 ^ 32 -> wrap 32 (s_extend sg 32 64 u) = u.
Proof.
  intros Hu. unfold s_extend. destruct sg; [|apply wrap_small; auto].
  change (sgn 32 u mod 2 ^ 64) with (wrap 64 (sgn 32 u)).
  assert (wrap 32 (wrap 64 (sgn 32 u)) = wrap 32 (sgn 32 u)) as ->.
  { unfold wrap. change (2 ^ 64) with (2 ^ 32 * 2 ^ 32). rewrite Z.rem_mul_r, Z.mul_comm, Z.mod_add, Z.mod_mod by lia. reflexivity. }
  rewrite wrap_sgn by lia. apply wrap_small; auto.
Qed.
Lemma ext_mul32 sg R xa xb u v i : wok 64 R = true -> 0 <= i < R / 64 -> 0 <= u < 2 ^ 32 -> 0 <= v < 2 ^ 32 ->
  lane 64 i xa = s_extend sg 32 64 u -> lane 64 i xb = s_extend sg 32 64 v ->
  lane 64 i (mm_mul32 sg R xa xb) = s_mull sg 32 u v.
Proof.
  intros HW Hi Hu Hv Ea Eb. rewrite mul32_lane, <- !lane64_lo, Ea, Eb, !wrap_s_extend by (auto; lia). reflexivity.
Qed.
(** one half of a register, extended *)
Lemma ext_half A sg s s' x : valid_arch A = true -> half_of s' s -> avail_int A 64 s' = true -> reg (rbits s) x ->
  exists y, i_ext_32_64 A sg s x = Ok [y] /\ forall i, 0 <= i < rbits s / 32 -> lane 64 i y = s_extend sg 32 64 (lane 32 i x).
Proof.
  intros HV HH HA Hx.
  assert (avail_int A 32 s = true /\ vreg A 64 (rbits s * 64 / 32) = s' /\ per A 32 64 s = 1%nat /\ nl 32 (rbits s) = nl 64 (rbits s')) as (HA' & E & P & N).
  { unfold per, vlen. assert (avail_int A 32 s = true /\ vreg A 64 (rbits s * 64 / 32) = s') as [? E].
    { unfold vreg, fast_int. destruct HH as [[-> ->]|[-> ->]]; cbn [avail_int rbits] in *; cbn [Z.leb Z.compare Pos.compare Pos.compare_cont] in *;
      (split; [first [reflexivity|destruct (rconf_ok _ HV); first [assumption|fcontra]]|]); destruct (rconf_ok _ HV); first [fcontra|rw_flags; reflexivity]. }
    split; auto. split; auto. rewrite E. destruct HH as [[-> ->]|[-> ->]]; split; reflexivity. }
  pose proof (i_ext_32_64_ok A sg s x HV HA' Hx) as C. rewrite E, P in C. pose proof C as (r & Er & _ & Lr & _).
  destruct r as [|y [|? ?]]; try discriminate Lr. exists y. split; auto. rewrite Er in C. intros i Hi. apply (cv_lane1 _ _ _ _ _ _ _ C); auto.
Qed.

Lemma ext_cv A sg s s' a b : valid_arch A = true -> half_of s s' -> avail_int A 64 s = true -> reg (rbits s) a -> reg (rbits s) b ->
  cv2 32 64 s (vreg A 64 (rbits s * 64 / 32)) (s_mull sg 32) (per A 32 64 s) a b
   (let '(al, ah) := i_split1 s a in let '(bl, bh) := i_split1 s b in
    let* al := i_ext_32_64 A sg s' al in let* bl := i_ext_32_64 A sg s' bl in
    let* ah := i_ext_32_64 A sg s' ah in let* bh := i_ext_32_64 A sg s' bh in
    let* al := aget al 0 in let* bl := aget bl 0 in let* ah := aget ah 0 in let* bh := aget bh 0 in
    Ok (combine2 A 64 s (mm_mul32 sg (rbits s) al bl) (mm_mul32 sg (rbits s) ah bh))).
Proof.
  intros HV HH HA Ha Hb.
  assert (forall x, i_split1 s x = (lane (rbits s') 0 x, lane (rbits s') 1 x)) as HS by (intros; destruct HH as [[-> ->]|[-> ->]]; reflexivity).
  rewrite !HS. assert (0 <= rbits s') as Hp by (destruct s'; discriminate).
  assert (forall i x, reg (rbits s') (lane (rbits s') i x)) as HR by (intros; apply lane_range; auto).
  destruct (ext_half A sg s' s (lane (rbits s') 0 a)) as (xal & -> & Lal); auto.
  destruct (ext_half A sg s' s (lane (rbits s') 0 b)) as (xbl & -> & Lbl); auto.
  destruct (ext_half A sg s' s (lane (rbits s') 1 a)) as (xah & -> & Lah); auto.
  destruct (ext_half A sg s' s (lane (rbits s') 1 b)) as (xbh & -> & Lbh); auto.
  cbn [bind aget length Nat.ltb Nat.leb nth].
  assert (wok 64 (rbits s) = true) as HW by (destruct s; reflexivity).
  apply (cv2_combine A 32 s); auto; [right; reflexivity|rewrite mul32_v2; apply v2_reg; auto|rewrite mul32_v2; apply v2_reg; auto|].
  intros i Hi. change (2 * 32) with 64 in *.
  assert (rbits s / 64 = rbits s' / 32) as En by (destruct HH as [[-> ->]|[-> ->]]; reflexivity).
  assert (forall x, lane 32 i (lane (rbits s') 0 x) = lane 32 i x /\ lane 32 i (lane (rbits s') 1 x) = lane 32 (rbits s / 64 + i) x) as HL.
  { intros x. assert (forall q, 0 <= q -> lane 32 i (lane (rbits s') q x) = lane 32 (q * (rbits s' / 32) + i) x) as HQ.
    { intros q Hq. rewrite En in Hi. clear - Hi Hq. destruct s'; [apply (lane_lane 32 4)|apply (lane_lane 32 8)|apply (lane_lane 32 16)]; first [exact Hi|lia]. }
    rewrite !HQ by lia. rewrite En. split; f_equal; lia. }
  split; apply ext_mul32; auto; try (apply lane_range; lia).
  - rewrite Lal by lia. rewrite (proj1 (HL a)). reflexivity.
  - rewrite Lbl by lia. rewrite (proj1 (HL b)). reflexivity.
  - rewrite Lah by lia. rewrite (proj2 (HL a)). reflexivity.
  - rewrite Lbh by lia. rewrite (proj2 (HL b)). reflexivity.
Qed.
(** mull of 32-bit lanes: the signed version exists only where noted *)
Definition mull32_missing (A : arch) (sg : bool) (s : rsz) : bool :=
  sg && match s with
        | R128 => (use_sse2 A && negb (use_sse41 A)) || (use_altivec A && negb (use_vsx207 A))
        | R256 => false
        | R512 => true
        end.
Lemma i_mull32_ok A sg s a b : valid_arch A = true -> avail_int A 32 s = true -> mull32_missing A sg s = false -> reg (rbits s) a -> reg (rbits s) b ->
  cv2 32 64 s (vreg A 64 (rbits s * 64 / 32)) (s_mull sg 32) (per A 32 64 s) a b (i_mull32 A sg s a b).
Proof.
  intros HV HA HM Ha Hb. assert (w12 32) as H32 by (right; reflexivity).
  unfold i_mull32. destruct s; cbv zeta.
  - destruct (use_sse2 A) eqn:E2.
    { assert (use_null A = false) as -> by (destruct (use_null A) eqn:?; auto; vimp HV).
      assert ((if sg then use_sse41 A else true) = true) as ->.
      { destruct sg; auto. cbn [mull32_missing andb] in HM. rewrite E2 in HM. destruct (use_sse41 A); auto; discriminate HM. }
      rewrite !i_zip_ok by auto. cbn [bind]. apply (cv2_combine A 32 R128); auto; [rewrite mul32_v2; apply v2_reg; auto|rewrite mul32_v2; apply v2_reg; auto|].
      intros i Hi. change (rbits R128 / (2 * 32)) with 2 in *. change (2 * 32) with 64.
      rewrite !mul32_lane by (auto; exact Hi). change (eb I32) with 32. change (en I32) with 4. change (rbits R128) with 128.
      rewrite !zip4_dup by auto. split; reflexivity. }
    assert (use_avx2 A = false) as HX by (destruct (use_avx2 A) eqn:?; auto; vimp HV).
    assert ((if sg then use_sse41 A else false) = false) as -> by (destruct sg; auto; destruct (use_sse41 A) eqn:?; auto; vimp HV).
    destruct (use_null A) eqn:EN.
    { destruct (null_mull_ok sg 32 a b H32) as (x & y & E & Rx & Ry & P). change (2 * 32) with 64 in E. rewrite E.
      apply (cv2_pair A 32); auto. }
    destruct (use_neon A) eqn:Ene.
    { apply (cv2_pair A 32); auto using vmull_reg. apply (vmull_prods sg 32); auto. }
    destruct (use_vsx207 A) eqn:EV.
    { unfold zip_combine. rewrite !i_zip_ok by (auto using mule_reg, mulo_reg). cbn [bind].
      apply (cv2_combine A 32 R128); auto; try (apply pack_reg; reflexivity).
      apply (evenodd_prods sg 32 2); auto. }
    assert (use_msa A = true -> cv2 32 64 R128 (vreg A 64 (rbits R128 * 64 / 32)) (s_mull sg 32) (per A 32 64 R128) a b
      (let* va := i_ext_32_64 A sg R128 a in let* vb := i_ext_32_64 A sg R128 b in
       let* a0 := aget va 0 in let* b0 := aget vb 0 in let* a1 := aget va 1 in let* b1 := aget vb 1 in
       Ok [msa_mulv 64 a0 b0; msa_mulv 64 a1 b1])) as HMSA.
    { intros _. destruct (msa_prods sg 32 i_ext_32_64 A a b) as (x & y & E & Rx & Ry & P); auto; try (apply ext32_pair; auto).
      change (2 * 32) with 64 in E. rewrite E. apply (cv2_pair A 32); auto. }
    destruct sg; [destruct (use_msa A) eqn:EM; auto|].
    { exfalso. cbn [mull32_missing andb] in HM. rewrite E2, EV in HM. destruct (use_altivec A) eqn:EA; [discriminate HM|]. fam HV; vimp HV. }
    destruct (use_altivec A) eqn:EA.
    { destruct (null_mull_ok false 32 a b H32) as (x & y & E & Rx & Ry & P). change (2 * 32) with 64 in E. rewrite E.
      apply (cv2_pair A 32); auto. }
    destruct (use_msa A) eqn:EM; auto. fam HV; vimp HV.
  - assert (use_avx2 A = true) as H2 by exact HA. rewrite H2. apply (ext_cv A sg R256 R128); auto. left; auto.
  - assert (use_avx512f A = true) as HF by exact HA. rewrite HF. destruct sg; [discriminate HM|]. apply (ext_cv A false R512 R256); auto. right; auto.
Qed.
