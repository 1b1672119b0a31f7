(** Minimum, maximum, averages. *)
From Verif Require Export Model.MinMax Proof.CmpP Proof.BlendP Proof.ArithP.

Definition min_of (sg : bool) (w x y : Z) : Z := if (if sg then sgn w x <? sgn w y else x <? y) then x else y.
Definition max_of (sg : bool) (w x y : Z) : Z := if (if sg then sgn w y <? sgn w x else y <? x) then x else y.

Lemma lxor_inv x c : Z.lxor (Z.lxor x c) c = x.
Proof. rewrite Z.lxor_assoc, Z.lxor_nilpotent, Z.lxor_0_r. reflexivity. Qed.
Lemma flip_range w x : 0 < w -> 0 <= x < 2 ^ w -> 0 <= Z.lxor x (2 ^ (w - 1)) < 2 ^ w.
Proof.
  intros Hw Hx. assert (reg w (2 ^ (w - 1))) as Hc.
  { pose proof (pow2_pos (w - 1) ltac:(lia)). split; [lia|]. apply Z.pow_lt_mono_r; lia. }
  apply (lxor_reg' w); try exact Hx; auto; lia.
Qed.
(** flipping the sign bit turns the signed reading into the unsigned one *)
Lemma flip_sgn w x : 0 < w -> 0 <= x < 2 ^ w -> Z.lxor x (2 ^ (w - 1)) = sgn w x + 2 ^ (w - 1).
Proof.
  intros Hw Hx. pose proof (sgn_flip w _ Hw (flip_range w x Hw Hx)) as E.
  rewrite lxor_inv in E. lia.
Qed.
Lemma flipv_reg w R a : wok w R = true -> reg R a -> reg R (flipv w R a).
Proof. intros H Ha. destruct (wok_spec _ _ H) as (_ & HR & _). apply (lxor_reg' R); auto. Qed.
Lemma flipv_v2 w R f g a b : wok w R = true ->
  (forall x y, 0 <= x < 2 ^ w -> 0 <= y < 2 ^ w ->
     Z.lxor (wrap w (f (Z.lxor x (2 ^ (w - 1))) (Z.lxor y (2 ^ (w - 1))))) (2 ^ (w - 1)) = wrap w (g x y)) ->
  flipv w R (v2 w R f (flipv w R a) (flipv w R b)) = v2 w R g a b.
Proof.
  intros H E. destruct (wok_spec _ _ H) as (Hw & HR & _).
  apply (reg_lanes w R); [exact H|apply flipv_reg; auto|apply v2_reg; auto|].
  intros i Hi. rewrite lane_flipv by auto. rewrite !lane_v2 by auto. rewrite !lane_flipv by auto.
  apply E; apply lane_range; lia.
Qed.

Lemma null_mm_ok (sg : bool) w R (pr : Z -> Z -> bool) (op : cval -> cval -> bool) a b : wok (wb w) R = true ->
  (forall x y, op x y = c_cmp pr x y) ->
  nloop (sg2 sg (st w) (ut w)) R (fun i => let t := sg2 sg (st w) (ut w) in
     Ok (if op (el t a i) (el t b i) then el t a i else el t b i))
  = Ok (v2 (wb w) R (fun x y => if (if sg then pr (sgn (wb w) x) (sgn (wb w) y) else pr x y) then x else y) a b).
Proof.
  intros HR Hop. destruct sg; cbn [sg2]; unfold v2.
  - apply (nloop_pack (st w)); [auto|]. change (snd (st w)) with (wb w). intros i Hi. rewrite Hop.
    eexists; split; [reflexivity|]. rewrite (c_cmp_s pr w a b i).
    match goal with |- context [if ?c then _ else _] => destruct c end; unfold el; cbn [snd];
    change (snd (st w)) with (wb w); change (cconv (st w)) with (sgn (wb w)); rewrite wrap_sgn by auto; reflexivity.
  - apply (nloop_pack (ut w)); [auto|]. change (snd (ut w)) with (wb w). intros i Hi. rewrite Hop.
    eexists; split; [reflexivity|]. rewrite (c_cmp_u pr w a b i).
    match goal with |- context [if ?c then _ else _] => destruct c end; unfold el; cbn [snd];
    change (snd (ut w)) with (wb w); rewrite u_cconv by auto; reflexivity.
Qed.
Lemma sgn_inj w x y : 0 < w -> 0 <= x < 2 ^ w -> 0 <= y < 2 ^ w -> sgn w x = sgn w y -> x = y.
Proof.
  intros Hw Hx Hy E. apply (f_equal (wrap w)) in E. rewrite !wrap_sgn, !wrap_small in E by auto. exact E.
Qed.
Lemma null_min_ok sg w R a b : wok (wb w) R = true ->
  null_min (sg2 sg (st w) (ut w)) R a b = Ok (v2 (wb w) R (min_of sg (wb w)) a b).
Proof.
  intros H. unfold null_min. etransitivity; [apply (null_mm_ok sg w R Z.leb c_le a b); auto|]. f_equal.
  apply v2_ext; auto. intros x y Hx Hy. f_equal. unfold min_of. destruct sg.
  - destruct (Z.leb_spec (sgn (wb w) x) (sgn (wb w) y)), (Z.ltb_spec (sgn (wb w) x) (sgn (wb w) y)); try lia; auto.
    apply (sgn_inj (wb w)); auto; lia.
  - destruct (Z.leb_spec x y), (Z.ltb_spec x y); lia.
Qed.
Lemma null_max_ok sg w R a b : wok (wb w) R = true ->
  null_max (sg2 sg (st w) (ut w)) R a b = Ok (v2 (wb w) R (max_of sg (wb w)) a b).
Proof.
  intros H. unfold null_max. etransitivity; [apply (null_mm_ok sg w R Z.geb c_ge a b); auto|]. f_equal.
  apply v2_ext; auto. intros x y Hx Hy. f_equal. unfold max_of. destruct sg; rewrite Z.geb_leb.
  - destruct (Z.leb_spec (sgn (wb w) y) (sgn (wb w) x)), (Z.ltb_spec (sgn (wb w) y) (sgn (wb w) x)); try lia; auto.
    apply (sgn_inj (wb w)); auto; lia.
  - destruct (Z.leb_spec y x), (Z.ltb_spec y x); lia.
Qed.

Lemma sgn_cmp_flip w x y : 0 < w -> 0 <= x < 2 ^ w -> 0 <= y < 2 ^ w ->
  (Z.lxor x (2 ^ (w - 1)) <? Z.lxor y (2 ^ (w - 1))) = (sgn w x <? sgn w y).
Proof.
  intros. rewrite !flip_sgn by auto.
  destruct (Z.ltb_spec (sgn w x + 2 ^ (w - 1)) (sgn w y + 2 ^ (w - 1))), (Z.ltb_spec (sgn w x) (sgn w y)); lia || reflexivity.
Qed.
Lemma cmp_flip_sgn w x y : 0 < w -> 0 <= x < 2 ^ w -> 0 <= y < 2 ^ w ->
  (sgn w (Z.lxor x (2 ^ (w - 1))) <? sgn w (Z.lxor y (2 ^ (w - 1)))) = (x <? y).
Proof. intros. rewrite !sgn_flip by auto. apply ltb_sub. Qed.

(** 64-bit min and max exist where AVX2, 64-bit NEON, AltiVec, MSA or no SIMD is used *)
Definition minmax_missing (A : arch) (w : ew) (s : rsz) : bool :=
  match w, s with
  | W64, R128 => (use_sse2 A && negb (use_avx2 A)) || (use_neon A && negb (use_neon64 A))
  | _, _ => false
  end.
Lemma minmax_order A w s : minmax_missing A w s = false -> order_missing A w s = false.
Proof.
  unfold minmax_missing, order_missing, use_neon32, use_neon64. destruct w; auto. destruct s; auto.
  destruct (use_sse2 A), (use_avx2 A), (use_neon A), (use_64 A); cbn; intros; try discriminate; auto.
Qed.

Section MM.
  Variables (A : arch) (w : ew) (s : rsz).
  Hypotheses (HV : valid_arch A = true) (HA : avail_int A (wb w) s = true).
  Lemma cmp_blend_ok (r : res Z) p f a b : reg (rbits s) a -> reg (rbits s) b ->
    Rok (mrel A w s p) r ->
    (forall i, 0 <= i < rbits s / wb w -> (if p i then lane (wb w) i a else lane (wb w) i b) = f (lane (wb w) i a) (lane (wb w) i b)) ->
    (let* m := r in i_blend_m A w s a b m) = Ok (v2 (wb w) (rbits s) f a b).
  Proof.
    intros Ha Hb Hr E. apply Rok_ex in Hr. destruct Hr as (m & -> & Hm). cbn [bind]. unfold i_blend_m.
    rewrite (sel_m_ok A w s HV HA (i_blend A w s)) with (p := p); auto.
    - f_equal. apply pack_ext; auto. intros i Hi. rewrite E; auto.
    - intros. apply i_blend_ok; auto.
  Qed.
  Lemma via_flip_ok f g a b : reg (rbits s) a -> reg (rbits s) b ->
    (forall x y, 0 <= x < 2 ^ wb w -> 0 <= y < 2 ^ wb w ->
      Z.lxor (wrap (wb w) (f (Z.lxor x (2 ^ (wb w - 1))) (Z.lxor y (2 ^ (wb w - 1))))) (2 ^ (wb w - 1)) = wrap (wb w) (g x y)) ->
    (let* c := konst A w s (2 ^ (wb w - 1)) in
     let* ca := i_bit_xor A w s a c in
     let* cb := i_bit_xor A w s b c in
     i_bit_xor A w s (v2 (wb w) (rbits s) f ca cb) c) = Ok (v2 (wb w) (rbits s) g a b).
  Proof.
    intros Ha Hb E. rewrite konst_ok by auto. cbn [bind].
    assert (reg (rbits s) (splat (wb w) (rbits s) (2 ^ (wb w - 1)))) by (apply pack_reg; auto).
    rewrite !i_bit_xor_ok by (auto; apply v2_reg; auto). cbn [bind].
    rewrite i_bit_xor_ok by (auto; apply v2_reg; auto). f_equal.
    apply flipv_v2; auto.
  Qed.
  Lemma flipmin sg x y : 0 <= x < 2 ^ wb w -> 0 <= y < 2 ^ wb w ->
    Z.lxor (wrap (wb w) (min_of (negb sg) (wb w) (Z.lxor x (2 ^ (wb w - 1))) (Z.lxor y (2 ^ (wb w - 1))))) (2 ^ (wb w - 1)) =
    wrap (wb w) (min_of sg (wb w) x y).
  Proof.
    intros Hx Hy. pose proof (flip_range (wb w) x ltac:(auto) Hx). pose proof (flip_range (wb w) y ltac:(auto) Hy).
    unfold min_of. destruct sg; cbn [negb]; rewrite ?sgn_cmp_flip, ?cmp_flip_sgn by auto;
    match goal with |- context [if ?c then _ else _] => destruct c end; rewrite !wrap_small by auto; apply lxor_inv.
  Qed.
  Lemma flipmax sg x y : 0 <= x < 2 ^ wb w -> 0 <= y < 2 ^ wb w ->
    Z.lxor (wrap (wb w) (max_of (negb sg) (wb w) (Z.lxor x (2 ^ (wb w - 1))) (Z.lxor y (2 ^ (wb w - 1))))) (2 ^ (wb w - 1)) =
    wrap (wb w) (max_of sg (wb w) x y).
  Proof.
    intros Hx Hy. pose proof (flip_range (wb w) x ltac:(auto) Hx). pose proof (flip_range (wb w) y ltac:(auto) Hy).
    unfold max_of. destruct sg; cbn [negb]; rewrite ?sgn_cmp_flip, ?cmp_flip_sgn by auto;
    match goal with |- context [if ?c then _ else _] => destruct c end; rewrite !wrap_small by auto; apply lxor_inv.
  Qed.
End MM.

Ltac mmleaf HC HF HN :=
  lazymatch goal with
  | |- Ok _ = Ok _ => reflexivity
  | |- bind _ (fun m => i_blend_m _ _ _ _ _ _) = _ => exact HC
  | |- bind (konst _ _ _ _) _ = _ => exact HF
  | |- _ => exact HN
  end.
Theorem i_min_ok A sg w s a b : valid_arch A = true -> avail_int A (wb w) s = true ->
  minmax_missing A w s = false -> reg (rbits s) a -> reg (rbits s) b ->
  i_min A sg w s a b = Ok (v2 (wb w) (rbits s) (min_of sg (wb w)) a b).
Proof.
  intros HV HA HM Ha Hb. unfold i_min, minmax_ladder.
  assert (HC : (let* m := i_cmp_lt A sg w s a b in i_blend_m A w s a b m) = Ok (v2 (wb w) (rbits s) (min_of sg (wb w)) a b)).
  { eapply cmp_blend_ok; auto. apply (i_cmp_lt_ok A HV); auto. apply minmax_order; auto.
    intros i Hi. reflexivity. }
  pose proof (via_flip_ok A w s HV HA (min_of (negb sg) (wb w)) (min_of sg (wb w)) a b Ha Hb (flipmin w sg)) as HF.
  pose proof (null_min_ok sg w 128 a b (wok_lib w R128)) as HN.
  revert HC HF HN. generalize (i_cmp_lt A sg w s a b). intros r HC HF HN.
  unfold minmax_missing, nat512 in *.
  destruct sg, w, s; cbn [rbits wb sg2 negb] in *; fam HV; repeat split_if; rw_in HM;
  first [ discriminate HM | mmleaf HC HF HN | vimp HV | cbn in HA; fcontra ].
Qed.
Theorem i_max_ok A sg w s a b : valid_arch A = true -> avail_int A (wb w) s = true ->
  minmax_missing A w s = false -> reg (rbits s) a -> reg (rbits s) b ->
  i_max A sg w s a b = Ok (v2 (wb w) (rbits s) (max_of sg (wb w)) a b).
Proof.
  intros HV HA HM Ha Hb. unfold i_max, minmax_ladder.
  assert (HC : (let* m := i_cmp_gt A sg w s a b in i_blend_m A w s a b m) = Ok (v2 (wb w) (rbits s) (max_of sg (wb w)) a b)).
  { eapply cmp_blend_ok; auto. apply (i_cmp_gt_ok A HV); auto. apply minmax_order; auto.
    intros i Hi. reflexivity. }
  pose proof (via_flip_ok A w s HV HA (max_of (negb sg) (wb w)) (max_of sg (wb w)) a b Ha Hb (flipmax w sg)) as HF.
  pose proof (null_max_ok sg w 128 a b (wok_lib w R128)) as HN.
  revert HC HF HN. generalize (i_cmp_gt A sg w s a b). intros r HC HF HN.
  unfold minmax_missing, nat512 in *.
  destruct sg, w, s; cbn [rbits wb sg2 negb] in *; fam HV; repeat split_if; rw_in HM;
  first [ discriminate HM | mmleaf HC HF HN | vimp HV | cbn in HA; fcontra ].
Qed.

(** ---------- averages ---------- *)
Lemma nocarry_split x y : x = Z.land x y + Z.ldiff x y.
Proof.
  rewrite Z.add_nocarry_lxor.
  - apply Z.bits_inj'. intros k Hk. rewrite Z.lxor_spec, Z.land_spec, Z.ldiff_spec.
    destruct (Z.testbit x k), (Z.testbit y k); reflexivity.
  - apply Z.bits_inj'. intros k Hk. rewrite !Z.land_spec, Z.ldiff_spec, Z.bits_0.
    destruct (Z.testbit x k), (Z.testbit y k); reflexivity.
Qed.
Lemma add_land_lxor x y : x + y = 2 * Z.land x y + Z.lxor x y.
Proof.
  assert (E : Z.lxor x y = Z.ldiff x y + Z.ldiff y x).
  { rewrite Z.add_nocarry_lxor.
    - apply Z.bits_inj'. intros k Hk. rewrite !Z.lxor_spec, !Z.ldiff_spec.
      destruct (Z.testbit x k), (Z.testbit y k); reflexivity.
    - apply Z.bits_inj'. intros k Hk. rewrite !Z.land_spec, !Z.ldiff_spec, Z.bits_0.
      destruct (Z.testbit x k), (Z.testbit y k); reflexivity. }
  pose proof (nocarry_split x y). pose proof (nocarry_split y x) as H2. rewrite (Z.land_comm y x) in H2. lia.
Qed.
Lemma avg_trunc_id x y : Z.land x y + Z.shiftr (Z.lxor x y) 1 = Z.shiftr (x + y) 1.
Proof.
  rewrite (add_land_lxor x y), !Z.shiftr_div_pow2 by lia. change (2 ^ 1) with 2.
  rewrite (Z.mul_comm 2), Z.div_add_l by lia. reflexivity.
Qed.
Lemma avg_id x y : Z.land x y + Z.shiftr (Z.lxor x y) 1 + Z.land (Z.lxor x y) 1 = Z.shiftr (x + y + 1) 1.
Proof.
  rewrite (add_land_lxor x y), !Z.shiftr_div_pow2 by lia. change (2 ^ 1) with 2.
  change 1 with (Z.ones 1) at 1. rewrite Z.land_ones by lia. change (2 ^ 1) with 2.
  replace (2 * Z.land x y + Z.lxor x y + 1) with (Z.land x y * 2 + (Z.lxor x y + 1)) by lia.
  rewrite Z.div_add_l by lia. set (q := Z.lxor x y).
  pose proof (Z.div_mod q 2 ltac:(lia)). pose proof (Z.mod_pos_bound q 2 ltac:(lia)).
  assert ((q + 1) / 2 = q / 2 + q mod 2); [|lia].
  symmetry. apply (Z.div_unique _ _ _ (1 - q mod 2)); lia.
Qed.

Definition avg_of (sg : bool) (w k x y : Z) : Z :=
  if sg then Z.shiftr (sgn w x + sgn w y + k) 1 else Z.shiftr (x + y + k) 1.
Ltac wgo T := exists T; (split; [cbn; lia|]; split; [fitz|]; split; [fitz|]);
  rewrite cconv_id by (first [reflexivity|fitz]); unfold c_add;
  rewrite (carith_gen T) by (first [reflexivity|fitz]); apply cres_ok; fitz.
Lemma null_avg_gen (sg : bool) w R k f a b : wok (wb w) R = true -> w <> W64 -> k = 0 \/ k = 1 ->
  (forall t x, fits t x = true -> fits t (x + 1) = true -> 32 <= snd t -> f (t, x) = Ok (t, x + k)) ->
  nloop (sg2 sg (st w) (ut w)) R (fun i =>
    let* x := c_add (ccast (wide sg w) (el (sg2 sg (st w) (ut w)) a i)) (el (sg2 sg (st w) (ut w)) b i) in
    let* y := f x in c_shr y (c_int, 1))
  = Ok (v2 (wb w) R (avg_of sg (wb w) k) a b).
Proof.
  intros HR Hw Hk Hf. unfold v2.
  assert (Hs : forall T X, 32 <= snd T -> c_shr (T, X) (c_int, 1) = Ok (T, Z.shiftr X 1)).
  { intros [sT wT] X HT. cbn [snd] in HT. unfold c_shr, promote. cbn [snd fst c_int c_i32].
    destruct (Z.ltb_spec wT 32); [lia|]. cbn [Z.ltb Z.compare Pos.compare Pos.compare_cont snd].
    destruct (Z.leb_spec wT 1); [lia|]. reflexivity. }
  destruct sg; cbn [sg2].
  - apply (nloop_pack (st w)); [auto|]. change (snd (st w)) with (wb w). intros i Hi.
    unfold ccast, el. cbn [snd]. change (snd (st w)) with (wb w). change (cconv (st w)) with (sgn (wb w)).
    unfold avg_of. set (X := sgn (wb w) (lane (wb w) i a)). set (Y := sgn (wb w) (lane (wb w) i b)).
    assert (HX : - 2 ^ (wb w - 1) <= X < 2 ^ (wb w - 1)) by (apply sgn_range; auto).
    assert (HY : - 2 ^ (wb w - 1) <= Y < 2 ^ (wb w - 1)) by (apply sgn_range; auto).
    clearbody X Y.
    assert (exists T, 32 <= snd T /\ fits T (X + Y) = true /\ fits T (X + Y + 1) = true /\
       c_add (wide true w, cconv (wide true w) X) (st w, Y) = Ok (T, X + Y)) as (T & HT & HF1 & HF2 & E).
    { destruct w; try congruence; cbn [wb] in *;
      [change (wide true W8) with c_i16; wgo c_int | change (wide true W16) with c_i32; wgo c_int | change (wide true W32) with c_i64; wgo c_i64]. }
    rewrite E. cbn [bind]. rewrite Hf by auto. cbn [bind]. rewrite Hs by auto. eexists; split; reflexivity.
  - apply (nloop_pack (ut w)); [auto|]. change (snd (ut w)) with (wb w). intros i Hi.
    unfold ccast, el. cbn [snd]. change (snd (ut w)) with (wb w). rewrite !u_cconv by auto.
    unfold avg_of. pose proof (ulane_range w i a) as HX. pose proof (ulane_range w i b) as HY.
    set (X := lane (wb w) i a) in *. set (Y := lane (wb w) i b) in *.
    clearbody X Y.
    assert (exists T, 32 <= snd T /\ fits T (X + Y) = true /\ fits T (X + Y + 1) = true /\
       c_add (wide false w, cconv (wide false w) X) (ut w, Y) = Ok (T, X + Y)) as (T & HT & HF1 & HF2 & E).
    { destruct w; try congruence; cbn [wb] in *;
      [change (wide false W8) with c_u16; wgo c_int | change (wide false W16) with c_u32; wgo c_u32 | change (wide false W32) with c_u64; wgo c_u64]. }
    rewrite E. cbn [bind]. rewrite Hf by auto. cbn [bind]. rewrite Hs by auto. eexists; split; reflexivity.
Qed.

Lemma null_avg_ok sg w R a b : wok (wb w) R = true -> w <> W64 ->
  null_avg sg w R a b = Ok (v2 (wb w) R (avg_of sg (wb w) 1) a b).
Proof.
  intros HR Hw. unfold null_avg.
  apply (null_avg_gen sg w R 1 (fun x => c_add x (c_int, 1)) a b HR Hw); [auto|].
  intros [sT wT] x H1 H2 HT. cbn [snd] in HT. unfold c_add.
  assert (Hu : usual (fst (promote ((sT, wT), x))) (fst (promote (c_int, 1))) = (sT, wT)).
  { change c_int with (true, 32). unfold promote. cbn [fst snd]. destruct (Z.ltb_spec wT 32); [lia|].
    cbn [Z.ltb Z.compare Pos.compare Pos.compare_cont fst]. unfold usual. cbn [fst snd].
    destruct (Z.eqb_spec wT 32); [subst; rewrite andb_true_r; reflexivity|].
    destruct (Z.ltb_spec 32 wT); [reflexivity|lia]. }
  rewrite (carith_gen (sT, wT)); auto.
  - apply cres_ok; auto.
  - cbn [snd]; lia.
  - apply fits_spec. cbn [fst snd]. pose proof (Z.pow_le_mono_r 2 31 (wT - 1) ltac:(lia) ltac:(lia)).
    pose proof (Z.pow_le_mono_r 2 31 wT ltac:(lia) ltac:(lia)). destruct sT; lia.
Qed.
Lemma bind_ret {X} (r : res X) : (let* y := r in Ok y) = r.
Proof. destruct r; reflexivity. Qed.
Lemma null_avg_trunc_ok sg w R a b : wok (wb w) R = true -> w <> W64 ->
  null_avg_trunc sg w R a b = Ok (v2 (wb w) R (avg_of sg (wb w) 0) a b).
Proof.
  intros HR Hw. unfold null_avg_trunc.
  apply (null_avg_gen sg w R 0 (fun x => Ok x) a b HR Hw); [auto|].
  intros. rewrite Z.add_0_r. reflexivity.
Qed.

Lemma shift_avg w x y k : 0 < w -> 0 <= x < 2 ^ w -> 0 <= y < 2 ^ w -> 0 <= k <= 1 ->
  0 <= Z.shiftr (x + y + k) 1 < 2 ^ w.
Proof.
  intros. rewrite Z.shiftr_div_pow2 by lia. change (2 ^ 1) with 2. split; [apply Z.div_pos; lia|].
  apply Z.div_lt_upper_bound; lia.
Qed.
Section Avg.
  Variables (A : arch) (w : ew) (s : rsz).
  Hypotheses (HV : valid_arch A = true) (HA : avail_int A (wb w) s = true).
  Lemma shr1_reg x : reg (rbits s) (shr_v false (wb w) (rbits s) 1 x).
  Proof. apply v1_reg; auto. Qed.
  Lemma wb_gt1 : 1 < wb w. Proof. destruct w; cbn; lia. Qed.
  Lemma lane_shr1 i x : 0 <= i < rbits s / wb w ->
    lane (wb w) i (shr_v false (wb w) (rbits s) 1 x) = wrap (wb w) (Z.shiftr (lane (wb w) i x) 1).
  Proof. intros. unfold shr_v. rewrite lane_v1 by auto. reflexivity. Qed.
  Lemma emul_avg_trunc_ok a b : reg (rbits s) a -> reg (rbits s) b ->
    emul_avg_trunc A w s a b = Ok (v2 (wb w) (rbits s) (avg_of false (wb w) 0) a b).
  Proof.
    intros Ha Hb. unfold emul_avg_trunc. pose proof wb_gt1.
    rewrite i_bit_and_ok, i_bit_xor_ok by auto. cbn [bind].
    rewrite i_shift_r_t_ok by (auto; lia). cbn [bind]. rewrite i_add_ok by auto. f_equal.
    apply pack_ext; auto. intros i Hi. rewrite lane_shr1 by auto.
    rewrite lane_land, lane_lxor by lia. rewrite wrap_add_r, avg_trunc_id. cbn [avg_of]. rewrite Z.add_0_r. reflexivity.
  Qed.
  Lemma emul_avg_ok a b : reg (rbits s) a -> reg (rbits s) b ->
    emul_avg A w s a b = Ok (v2 (wb w) (rbits s) (avg_of false (wb w) 1) a b).
  Proof.
    intros Ha Hb. unfold emul_avg. pose proof wb_gt1.
    rewrite i_bit_and_ok, i_bit_xor_ok by auto. cbn [bind]. rewrite konst_ok by auto. cbn [bind].
    rewrite i_bit_and_ok by auto. cbn [bind].
    rewrite i_shift_r_t_ok by (auto; lia). cbn [bind]. rewrite !i_add_ok by auto. cbn [bind]. rewrite i_add_ok by auto. f_equal.
    apply pack_ext; auto. intros i Hi. rewrite lane_v2 by auto. rewrite lane_shr1 by auto.
    rewrite !lane_land, lane_lxor, lane_splat by (auto; lia).
    rewrite (wrap_small (wb w) 1) by (split; [lia|]; apply (Z.pow_lt_mono_r 2 0); lia).
    rewrite wrap_add_l. rewrite <- Z.add_assoc, (Z.add_comm (wrap _ _)), Z.add_assoc, wrap_add_r.
    cbn [avg_of]. rewrite <- avg_id. f_equal. ring.
  Qed.
  Lemma biased_ok op k a b : 0 <= k <= 1 ->
    (forall a b, reg (rbits s) a -> reg (rbits s) b -> op a b = Ok (v2 (wb w) (rbits s) (avg_of false (wb w) k) a b)) ->
    reg (rbits s) a -> reg (rbits s) b ->
    biased A w s op a b = Ok (v2 (wb w) (rbits s) (avg_of true (wb w) k) a b).
  Proof.
    intros Hk Hop Ha Hb. unfold biased. pose proof wb_gt1 as HW. rewrite konst_ok by auto. cbn [bind].
    assert (reg (rbits s) (splat (wb w) (rbits s) (2 ^ (wb w - 1)))) by (apply pack_reg; auto).
    rewrite !i_bit_xor_ok by auto. cbn [bind].
    change (Z.lxor a (splat (wb w) (rbits s) (2 ^ (wb w - 1)))) with (flipv (wb w) (rbits s) a).
    change (Z.lxor b (splat (wb w) (rbits s) (2 ^ (wb w - 1)))) with (flipv (wb w) (rbits s) b).
    rewrite Hop by (apply flipv_reg; auto). cbn [bind].
    rewrite i_bit_xor_ok by (auto; apply v2_reg; auto). f_equal. apply flipv_v2; auto.
    intros x y Hx Hy. pose proof (flip_range (wb w) x ltac:(lia) Hx). pose proof (flip_range (wb w) y ltac:(lia) Hy).
    cbn [avg_of]. rewrite wrap_small by (apply shift_avg; auto; lia).
    rewrite lxor_sign by (try apply shift_avg; auto; lia).
    rewrite !flip_sgn by (auto; lia). set (X := sgn (wb w) x). set (Y := sgn (wb w) y).
    assert (E2 : 2 ^ wb w = 2 * 2 ^ (wb w - 1)) by (rewrite <- Z.pow_succ_r by lia; f_equal; lia).
    assert (E : Z.shiftr (X + 2 ^ (wb w - 1) + (Y + 2 ^ (wb w - 1)) + k) 1 = Z.shiftr (X + Y + k) 1 + 2 ^ (wb w - 1)).
    { rewrite !Z.shiftr_div_pow2 by lia. change (2 ^ 1) with 2.
      replace (X + 2 ^ (wb w - 1) + (Y + 2 ^ (wb w - 1)) + k) with (X + Y + k + 2 ^ (wb w - 1) * 2) by lia.
      rewrite Z.div_add by lia. reflexivity. }
    rewrite E. set (Q := Z.shiftr (X + Y + k) 1).
    assert (HX : - 2 ^ (wb w - 1) <= X < 2 ^ (wb w - 1)) by (apply sgn_range; auto).
    assert (HY : - 2 ^ (wb w - 1) <= Y < 2 ^ (wb w - 1)) by (apply sgn_range; auto).
    assert (HQ : - 2 ^ (wb w - 1) <= Q < 2 ^ (wb w - 1)).
    { unfold Q. rewrite Z.shiftr_div_pow2 by lia. change (2 ^ 1) with 2. split.
      - apply Z.div_le_lower_bound; lia.
      - apply Z.div_lt_upper_bound; lia. }
    clearbody Q. unfold wrap. destruct (Z.ltb_spec (Q + 2 ^ (wb w - 1)) (2 ^ (wb w - 1))).
    - apply (Z.mod_unique_pos _ _ (-1)); lia.
    - symmetry. replace (Q + 2 ^ (wb w - 1) - 2 ^ (wb w - 1)) with Q by lia. apply Z.mod_small; lia.
  Qed.

  Hypothesis HW : w <> W64.
  Theorem i_avg_u_ok a b : reg (rbits s) a -> reg (rbits s) b ->
    i_avg_u A w s a b = Ok (v2 (wb w) (rbits s) (avg_of false (wb w) 1) a b).
  Proof.
    intros Ha Hb. unfold i_avg_u. rewrite emul_avg_ok by auto.
    pose proof (null_avg_ok false w 128 a b (wok_lib w R128) HW) as HN. unfold nat512.
    destruct s, w; try congruence; cbn [rbits wb] in *; clear HW; lad HV HA ltac:(idtac; first [reflexivity | exact HN]).
  Qed.
  Theorem i_avg_ok sg a b : reg (rbits s) a -> reg (rbits s) b ->
    i_avg A sg w s a b = Ok (v2 (wb w) (rbits s) (avg_of sg (wb w) 1) a b).
  Proof.
    intros Ha Hb. unfold i_avg. destruct sg; [|apply i_avg_u_ok; auto].
    rewrite (biased_ok _ 1) by (auto; try lia; intros; apply i_avg_u_ok; auto).
    pose proof (null_avg_ok true w 128 a b (wok_lib w R128) HW) as HN. unfold nat512.
    destruct s, w; try congruence; cbn [rbits wb] in *; clear HW; lad HV HA ltac:(idtac; first [reflexivity | exact HN]).
  Qed.
  Theorem i_avg_trunc_ok sg a b : reg (rbits s) a -> reg (rbits s) b ->
    i_avg_trunc A sg w s a b = Ok (v2 (wb w) (rbits s) (avg_of sg (wb w) 0) a b).
  Proof.
    intros Ha Hb. unfold i_avg_trunc.
    assert (HE : (if sg then biased A w s (emul_avg_trunc A w s) a b else emul_avg_trunc A w s a b) =
      Ok (v2 (wb w) (rbits s) (avg_of sg (wb w) 0) a b)).
    { destruct sg; [apply biased_ok; auto; [lia|]; intros; apply emul_avg_trunc_ok; auto | apply emul_avg_trunc_ok; auto]. }
    rewrite HE. clear HE.
    pose proof (null_avg_trunc_ok sg w 128 a b (wok_lib w R128) HW) as HN. unfold nat512.
    destruct sg, s, w; try congruence; cbn [rbits wb sg2] in *; clear HW; lad HV HA ltac:(idtac; first [reflexivity | exact HN
      | f_equal; apply v2_ext; [reflexivity|]; intros; cbn [avg_of]; rewrite Z.add_0_r; reflexivity]).
  Qed.
End Avg.
