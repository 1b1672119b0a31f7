(** Horizontal reductions: minimum and maximum. *)
From Verif Require Import Spec.Reduce Model.Reduce Proof.CppLemmas Proof.BitwiseP Proof.ArithP Proof.ShiftP Proof.SetSplatP Proof.CmpP
  Proof.MinMaxP Proof.MoveP Proof.ExtractP2 Proof.SplitP Proof.MakeConstP Proof.LoadStoreP4 Proof.PopcntP Proof.PopcntP3 Proof.ReduceP.

Definition mf (mx : bool) : Z -> Z -> Z := if mx then Z.max else Z.min.
Definition mty (sg : bool) (w : ew) : cty := sg2 sg (st w) (ut w).
Section MM.
  Variables (A : arch) (fp : Z).
  Hypotheses (HV : valid_arch A = true) (Hfp : fp mod 64 = 0).
  Variables (mx : bool).
  Section T.
  Variables (sg : bool) (w : ew).
  Local Notation f := (mf mx).
  Local Notation e := (m_init mx sg (wb w)).
  Local Notation P := (fun x => fits (mty sg w) x = true).
  Local Notation v := (value sg (wb w)).
  Local Notation g := ((if mx then max_of else min_of) sg (wb w)).
  Lemma mty_w : snd (mty sg w) = wb w. Proof. destruct sg; reflexivity. Qed.
  Lemma mty_pos : 0 < snd (mty sg w). Proof. rewrite mty_w. destruct w; reflexivity. Qed.
  Lemma m_assoc x y z : P x -> P y -> P z -> f x (f y z) = f (f x y) z.
  Proof. intros _ _ _. unfold mf. destruct mx; lia. Qed.
  Lemma m_comm x y : P x -> P y -> f x y = f y x.
  Proof. intros _ _. unfold mf. destruct mx; lia. Qed.
  Lemma m_P_e : P e.
  Proof. unfold m_init. destruct mx, sg, w; vm_compute; reflexivity. Qed.
  Lemma m_P_f x y : P x -> P y -> P (f x y).
  Proof. unfold mf. intros. destruct mx; [destruct (Z.max_spec x y) as [[_ ->]|[_ ->]]|destruct (Z.min_spec x y) as [[_ ->]|[_ ->]]]; auto. Qed.
  Lemma m_f_e x : P x -> f e x = x.
  Proof.
    idtac. intros H. apply fits_spec in H. unfold mf, m_init, mty in *. destruct sg; cbn [sg2 st ut fst snd] in H.
    - destruct mx; [apply Z.max_r|apply Z.min_r]; lia.
    - destruct mx; [apply Z.max_r|apply Z.min_r]; lia.
  Qed.
  Lemma m_idem x y : f x (f x y) = f x y.
  Proof. unfold mf. destruct mx; lia. Qed.
  Lemma m_vc x : 0 <= x < 2 ^ wb w -> v x = cconv (mty sg w) x.
  Proof. intros. unfold value, cconv, mty. destruct sg; [reflexivity|]. cbn. symmetry. apply wrap_small; auto. Qed.
  Lemma m_vP x : 0 <= x < 2 ^ wb w -> P (v x).
  Proof. intros. rewrite m_vc by auto. idtac. apply cconv_fits, mty_pos. Qed.
  Lemma m_g x y : 0 <= x < 2 ^ wb w -> 0 <= y < 2 ^ wb w -> v (wrap (wb w) (g x y)) = f (v x) (v y).
  Proof.
    intros Hx Hy. unfold mf, value, max_of, min_of. destruct mx, sg;
      match goal with |- context [if ?c then x else y] => let E := fresh in destruct c eqn:E; first [apply Z.ltb_lt in E | apply Z.ltb_ge in E] end;
      rewrite wrap_small by auto; lia.
  Qed.
  Lemma m_op_ok s a b : minmax_missing A w R128 = false -> avail_et A (iet w) s = true -> reg (rbits s) a -> reg (rbits s) b ->
    m_op A mx sg w s a b = Ok (v2 (wb w) (rbits s) g a b).
  Proof.
    intros HM HA Ha Hb. assert (avail_int A (wb w) s = true) by (destruct w; exact HA).
    assert (minmax_missing A w s = false) by (destruct w, s; auto).
    unfold m_op. destruct mx; [apply i_max_ok|apply i_min_ok]; auto.
  Qed.
  Lemma m_sop x y : P x -> P y -> exists d, m_null mx (mty sg w, x) (mty sg w, y) = Ok d /\ ccast (mty sg w) d = (mty sg w, f x y).
  Proof.
    intros Hx Hy. unfold m_null. eexists. split; [reflexivity|]. unfold c_gt, c_lt.
    pose proof (c_cmp_el (mty sg w)) as C. specialize (fun f => C f x y).
    rewrite (cconv_id _ x), (cconv_id _ y) in C by auto using mty_pos. rewrite !C by (rewrite mty_w; destruct w; reflexivity || discriminate).
    unfold mf, ccast. destruct mx.
    - destruct (x >? y) eqn:E; rewrite Z.gtb_ltb in E; [apply Z.ltb_lt in E|apply Z.ltb_ge in E]; cbn [snd]; rewrite cconv_id by auto using mty_pos; f_equal; lia.
    - destruct (x <? y) eqn:E; [apply Z.ltb_lt in E|apply Z.ltb_ge in E]; cbn [snd]; rewrite cconv_id by auto using mty_pos; f_equal; lia.
  Qed.
  Let ebw : eb (iet w) = wb w. Proof. destruct w; reflexivity. Qed.
  Definition mmean (R a : Z) : Z := mean f e (wb w) v (nl (wb w) R) a.
  Lemma tree_mm_ok a : minmax_missing A w R128 = false -> extract_def A sg (iet w) -> reg 128 a -> tree_mm A fp mx sg w a = Ok (mmean 128 a).
  Proof.
    intros HM HD Ha. unfold tree_mm.
    assert (Hf : fp mod 16 = 0) by (clear - Hfp; zl).
    destruct (red_tree_ok f e P m_assoc m_comm m_P_e m_P_f m_f_e (wb w) v g m_vP m_g A fp (iet w) (m_op A mx sg w) HV Hf ebw
      ltac:(intros; apply m_op_ok; auto) sg a Ha HD) as (x & E & Hx & M). rewrite E. f_equal. exact M.
  Qed.
  Lemma null_mm_ok a : null_mm mx sg w a = Ok (mmean 128 a).
  Proof.
    assert (N : forall k, (k <= 1)%nat -> null_red1 (mty sg w) (mty sg w) (m_null mx) k a = Ok (mmean 128 a)).
    { intros k Hk.
      apply (null_red1_ok f e P m_assoc m_comm m_P_e m_P_f m_f_e (wb w) v g m_vP A (iet w) (fun s a b => Ok (v2 (wb w) (rbits s) g a b)) ebw
        ltac:(reflexivity) (mty sg w) (m_null mx) mty_w m_vc m_sop); auto.
      - left. intros. apply m_idem.
      - apply cconv_id; [apply mty_pos|]. apply m_vP. apply lane_range. destruct w; discriminate. }
    unfold null_mm. fold (mty sg w). apply N. destruct w; auto. destruct (sg && negb mx); auto.
  Qed.
  Lemma null_mmN va : null_redN (mty sg w) (mty sg w) (m_null mx) (m_init mx sg (wb w)) va = Ok (red f e (map v (lanes (wb w) R128 va))).
  Proof.
    apply (null_redN_ok f e P m_assoc m_comm m_P_e m_P_f m_f_e (wb w) v g m_vP A (iet w) (fun s a b => Ok (v2 (wb w) (rbits s) g a b)) ebw
        ltac:(reflexivity) (mty sg w) (m_null mx) mty_w m_vc m_sop).
  Qed.
  Lemma vminmaxv_ok a : vminmaxv mx sg (wb w) a = mmean 128 a.
  Proof.
    unfold vminmaxv, mmean, mean, red, elems, zrange, nl. rewrite !map_map. fold (mf mx). 
    unfold value. destruct sg; reflexivity.
  Qed.
  (** the elements of a mem_block *)
  Lemma block_els_ok s from a : avail_et A (iet w) s = true -> reg (rbits s) a ->
    block_els A fp (mty sg w) (iet w) s from a = Ok (map (pair (mty sg w)) (map v (map (fun i => lane (wb w) (Z.of_nat i) a) (seq from (nl (wb w) (rbits s) - from))))).
  Proof.
    intros HA Ha. assert (Hs : fp mod (rbits s / 8) = 0).
    { destruct s; [change (rbits R128 / 8) with 16|change (rbits R256 / 8) with 32|change (rbits R512 / 8) with 64]; clear - Hfp; zl. }
    destruct (mem_block_ok A fp HV (iet w) s a HA Hs) as (m & Em & G).
    unfold block_els. rewrite Em. cbn [bind]. rewrite mty_w.
    assert (HG : forall i, (i < nl (wb w) (rbits s))%nat -> mb_get fp (eb (iet w)) (Z.of_nat i) m = Ok (lane (wb w) (Z.of_nat i) a)).
    { intros i Hi. rewrite ebw. assert (HW : wok (wb w) (rbits s) = true) by (destruct w, s; reflexivity). destruct (wok_spec _ _ HW) as (_ & _ & _ & En).
      rewrite ebw in G.
      apply (mb_get_ok fp (wb w) (rbits s)); auto; [destruct w; reflexivity| |lia].
      apply Z.mod_divide in Hfp as (q & ->); [|discriminate]. unfold aligned. destruct w; cbn; clear; zl. }
    assert (forall n k, (k + n <= nl (wb w) (rbits s))%nat ->
      (fix go (l : list nat) : res (list cval) :=
         match l with
         | [] => Ok []
         | i :: l => let* x := mb_get fp (eb (iet w)) (Z.of_nat i) m in let* xs := go l in Ok ((mty sg w, cconv (mty sg w) x) :: xs)
         end) (seq k n) = Ok (map (pair (mty sg w)) (map v (map (fun i => lane (wb w) (Z.of_nat i) a) (seq k n))))) as H.
    { induction n as [|n IH]; intros k Hk; [reflexivity|]. cbn [seq map]. rewrite HG by lia. cbn [bind]. rewrite IH by lia. cbn [bind].
      rewrite <- m_vc; [reflexivity|]. apply lane_range. destruct w; discriminate. }
    destruct (Nat.leb_spec from (nl (wb w) (rbits s))) as [L|L].
    - apply H. lia.
    - replace (nl (wb w) (rbits s) - from)%nat with 0%nat by lia. reflexivity.
  Qed.
  Lemma block_red_ok a : reg 128 a -> block_red A fp mx sg w a = Ok (mmean 128 a).
  Proof.
    intros Ha. unfold block_red. fold (mty sg w). rewrite block_els_ok by (auto; destruct w; reflexivity). cbn [bind rbits].
    rewrite Nat.sub_0_r. unfold mmean, mean, elems.
    assert (nl (wb w) 128 = S (nl (wb w) 128 - 1)) as En by (clear; destruct w; reflexivity).
    rewrite En. set (n := (nl (wb w) 128 - 1)%nat). cbn [seq map].
    assert (forall l, Forall (fun i => True) l -> Forall P (map v (map (fun i => lane (wb w) (Z.of_nat i) a) l))) as HP.
    { intros l _. apply Forall_forall. intros x Hx. apply in_map_iff in Hx as (y & <- & Hy). apply m_vP.
      apply in_map_iff in Hy as (i & <- & _). apply lane_range. destruct w; discriminate. }
    assert (P0 : P (v (lane (wb w) (Z.of_nat 0) a))) by (apply m_vP, lane_range; destruct w; discriminate).
    assert (P1 : Forall P (map v (map (fun i => lane (wb w) (Z.of_nat i) a) (seq 1 n)))) by (apply HP, Forall_forall; auto).
    rewrite (accum_ok f P m_P_f (mty sg w) (mty sg w)) by (auto using m_sop). cbn [bind snd]. f_equal.
    rewrite (red_left f e P m_assoc m_comm m_P_e m_P_f m_f_e) by auto. reflexivity.
  Qed.
  Lemma blocks_ok s va : avail_et A (iet w) s = true -> wfv s va ->
    blocks A fp (mty sg w) (iet w) s va = Ok (map (pair (mty sg w)) (map v (lanes (wb w) s va))).
  Proof.
    intros HA. induction 1 as [|a va Ha Hva IH]; [reflexivity|]. cbn [blocks]. rewrite block_els_ok by auto. cbn [bind]. rewrite IH. cbn [bind].
    rewrite lanes_cons, !map_app, Nat.sub_0_r. reflexivity.
  Qed.
  Lemma blocks_red_ok s va : avail_et A (iet w) s = true -> wfv s va -> blocks_red A fp mx sg w s va = Ok (red f e (map v (lanes (wb w) s va))).
  Proof.
    intros HA Hva. unfold blocks_red. fold (mty sg w). rewrite blocks_ok by auto. cbn [bind].
    assert (PL : Forall P (map v (lanes (wb w) s va))) by (apply (lanes_P P); [exact m_vP|destruct w; reflexivity]).
    rewrite (accum_ok f P m_P_f (mty sg w) (mty sg w)) by first [exact m_sop | exact m_P_e | exact PL]. cbn [bind snd]. f_equal.
    rewrite (red_left f e P m_assoc m_comm m_P_e m_P_f m_f_e) by first [exact m_P_e | exact PL]. apply m_f_e, (red_P f e P m_P_e m_P_f); exact PL.


  Qed.
  Lemma mm_native_ok fb a : w <> W64 -> reg 128 a -> (use_null A = false -> use_sse2 A = true -> use_sse41 A = false -> fb = Ok (mmean 128 a)) -> mm_native A fp mx sg w fb a = Ok (mmean 128 a).
  Proof.
    intros Hw Ha Hfb. assert (HM : minmax_missing A w R128 = false) by (destruct w; auto; contradiction).
    assert (HD : extract_def A sg (iet w)) by (intros _ E; destruct w; try discriminate; contradiction).
    pose proof (tree_mm_ok a HM HD Ha) as T. pose proof (null_mm_ok a) as N. pose proof (vminmaxv_ok a) as V.
    unfold mm_native. clear - HV Hfb T N V.
    destruct (use_null A) eqn:E0; [exact N|]. destruct (use_neon64 A) eqn:E1; [rewrite V; reflexivity|].
    destruct (use_sse41 A) eqn:E2; [exact T|]. destruct (use_neon A) eqn:E3; [exact T|]. destruct (use_altivec A) eqn:E4; [exact T|].
    destruct (use_msa A) eqn:E5; [exact T|]. cbn [orb]. destruct (use_sse2 A) eqn:E6; [auto|]. exfalso. fam HV; fcontra.
  Qed.
  Lemma red_wide_mm red128 s a : (s <> R128 -> minmax_missing A w R128 = false) -> avail_et A (iet w) s = true -> reg (rbits s) a ->
    (forall a, reg 128 a -> red128 a = Ok (mmean 128 a)) -> red_wide A (fun s => m_op A mx sg w s) red128 (iet w) s a = Ok (mmean (rbits s) a).
  Proof.
    intros HM HA Ha H1. assert (HA2 := avail_256 A _ s HV HA). destruct s; [apply H1; auto|..];
    (edestruct (red_wide_ok f e P m_assoc m_comm m_P_e m_P_f m_f_e (wb w) v g m_vP m_g A (iet w) (m_op A mx sg w) ebw
      ltac:(intros; apply m_op_ok; auto; apply HM; discriminate) red128 (fun m r => r = m)) as (r & E & ->); [exact HA|exact HA2|exact Ha| |exact E];
     intros b Hb; eexists; split; [apply H1; auto|reflexivity]).
  Qed.
  Lemma red_multi_mm s one va : minmax_missing A w R128 = false -> avail_et A (iet w) s = true -> wfv s va -> va <> [] ->
    (forall a, reg (rbits s) a -> one a = Ok (mmean (rbits s) a)) ->
    red_multi (m_op A mx sg w s) one va = Ok (red f e (map v (lanes (wb w) s va))).
  Proof.
    intros HM HA Hva Hn H1.
    edestruct (red_multi_ok f e P m_assoc m_comm m_P_e m_P_f m_f_e (wb w) v g m_vP m_g A (iet w) (m_op A mx sg w) ebw
      ltac:(intros; apply m_op_ok; auto) (fun m r => r = m) s one va HA Hva Hn) as (r & E & ->); [|exact E].
    intros b Hb; eexists; split; [apply H1; auto|reflexivity].
  Qed.
  End T.
  Local Notation mfx := (mf mx).
  (** flipping the top bits turns unsigned values into shifted signed ones and back *)
  Definition shift (sg : bool) (w : ew) : Z := if sg then 2 ^ (wb w - 1) else - 2 ^ (wb w - 1).
  Lemma value_flip sg w x : 0 <= x < 2 ^ wb w -> value (negb sg) (wb w) (Z.lxor x (2 ^ (wb w - 1))) = value sg (wb w) x + shift sg w.
  Proof. intros Hx. assert (0 < wb w) by (destruct w; reflexivity). unfold value, shift. destruct sg; cbn [negb]; [apply flip_sgn|rewrite sgn_flip; auto; lia]; auto. Qed.
  Lemma red_shift sg w l : red mfx (m_init mx (negb sg) (wb w)) (map (fun x => x + shift sg w) l) = red mfx (m_init mx sg (wb w)) l + shift sg w.
  Proof.
    induction l as [|x l IH]; cbn [map red fold_right].
    - unfold m_init, shift. destruct mx, sg, w; reflexivity.
    - fold (red mfx (m_init mx (negb sg) (wb w)) (map (fun x => x + shift sg w) l)). fold (red mfx (m_init mx sg (wb w)) l). rewrite IH. unfold mf. destruct mx; lia.
  Qed.
  Lemma elems_flip sg w s a : map (value (negb sg) (wb w)) (elems (wb w) (nl (wb w) (rbits s)) (flipv (wb w) (rbits s) a)) =
    map (fun x => x + shift sg w) (map (value sg (wb w)) (elems (wb w) (nl (wb w) (rbits s)) a)).
  Proof.
    assert (HW : wok (wb w) (rbits s) = true) by (destruct w, s; reflexivity). destruct (wok_spec _ _ HW) as (Hp & _ & _ & En).
    unfold elems. rewrite !map_map. apply map_ext_in. intros i Hi. apply in_seq in Hi. rewrite lane_flipv by (auto; lia).
    apply value_flip. apply lane_range. lia.
  Qed.
  Lemma mmean_flip sg w s a : mmean (negb sg) w (rbits s) (flipv (wb w) (rbits s) a) = mmean sg w (rbits s) a + shift sg w.
  Proof. unfold mmean, mean. rewrite elems_flip. apply red_shift. Qed.
  Lemma lanes_flip sg w s va : map (value (negb sg) (wb w)) (lanes (wb w) s (map (flipv (wb w) (rbits s)) va)) =
    map (fun x => x + shift sg w) (map (value sg (wb w)) (lanes (wb w) s va)).
  Proof. induction va as [|a va IH]; [reflexivity|]. cbn [map]. rewrite !lanes_cons, !map_app, IH, elems_flip. reflexivity. Qed.
  (** r ^ 0x80.. *)
  Lemma unflip sg w x : fits (mty sg w) x = true -> cconv (sg, wb w) (Z.lxor (x + shift sg w) (2 ^ (wb w - 1))) = x.
  Proof.
    intros Hx. apply fits_spec in Hx. assert (0 < wb w) by (destruct w; reflexivity). unfold cconv, mty, shift in *. destruct sg; cbn [sg2 st ut fst snd] in *.
    - assert (2 ^ wb w = 2 * 2 ^ (wb w - 1)) by (rewrite <- Z.pow_succ_r by lia; f_equal; lia). rewrite sgn_flip by lia. lia.
    - change (wrap (wb w) (Z.lxor (x + - 2 ^ (wb w - 1)) (2 ^ (wb w - 1))) = x).
      replace (x + - 2 ^ (wb w - 1)) with (sgn (wb w) (Z.lxor x (2 ^ (wb w - 1)))) by (rewrite sgn_flip; auto; lia).
      pose proof (flip_range (wb w) x ltac:(lia) Hx) as Hf.
      rewrite <- (lane_0 (wb w) (Z.lxor _ _)), lane_lxor, !lane_0 by lia.
      rewrite wrap_sgn by lia. rewrite (wrap_small _ _ Hf). rewrite wrap_small by (split; [apply Z.pow_nonneg; lia|apply Z.pow_lt_mono_r; lia]). apply lxor_inv.
  Qed.
  Lemma flip_ok w a : reg 128 a -> flip A w R128 a = Ok (flipv (wb w) 128 a).
  Proof.
    intros Ha. unfold flip. rewrite konst_ok by auto. cbn [bind]. rewrite i_bit_xor_ok by (auto; apply splat_reg; destruct w; reflexivity). reflexivity.
  Qed.
  Lemma flips_ok w va : wfv R128 va -> flips A w va = Ok (map (flipv (wb w) 128) va).
  Proof. induction 1 as [|a va Ha Hva IH]; [reflexivity|]. cbn [flips map]. rewrite flip_ok by auto. cbn [bind]. rewrite IH. reflexivity. Qed.
  Lemma flipv_reg' w a : reg 128 a -> reg 128 (flipv (wb w) 128 a).
  Proof. intros. apply flipv_reg; auto. destruct w; reflexivity. Qed.
  Lemma mmean_fits sg w R a : fits (mty sg w) (mmean sg w R a) = true.
  Proof. apply (mean_P mfx (m_init mx sg (wb w)) (fun x => fits (mty sg w) x = true) (m_P_e sg w) (m_P_f sg w) (wb w) (value sg (wb w)) (m_vP sg w)). destruct w; reflexivity. Qed.

  (** where the one-register reductions exist; several registers need the same, except that
      reduce_min of int64 on 32-bit NEON exists for them *)
  Definition rmm_ok (sg : bool) (w : ew) (one : bool) : bool :=
    match w with
    | W64 => if sg then negb (use_msa A) && (mx || negb (use_neon32 A) || negb one) else negb (mx && use_msa A)
    | _ => true
    end.
  Lemma red_mm128_ok sg w a : rmm_ok sg w true = true -> reg 128 a -> red_mm128 A fp mx sg w a = Ok (mmean sg w 128 a).
  Proof.
    intros HO Ha. assert (B : forall sg w, block_red A fp mx sg w a = Ok (mmean sg w 128 a)) by (intros; apply block_red_ok; auto).
    assert (N : forall sg w, null_mm mx sg w a = Ok (mmean sg w 128 a)) by (intros; apply null_mm_ok; auto).
    assert (D : forall sg w, w <> W64 -> extract_def A sg (iet w)) by (intros sg' w' H _ E; destruct w'; try discriminate; contradiction).
    assert (M : forall w, w <> W64 -> minmax_missing A w R128 = false) by (intros w' H; destruct w'; auto; contradiction).
    assert (FL : forall sg w, w <> W64 -> (use_sse41 A = false -> use_sse2 A = true -> tree_mm A fp mx (negb sg) w (flipv (wb w) 128 a) = Ok (mmean (negb sg) w 128 (flipv (wb w) 128 a))) ->
      (let* c := flip A w R128 a in let* r := mm_native A fp mx (negb sg) w (tree_mm A fp mx (negb sg) w c) c in Ok (cconv (sg, wb w) (Z.lxor r (2 ^ (wb w - 1))))) =
      Ok (mmean sg w 128 a)).
    { intros sg' w' H HT. rewrite flip_ok by auto. cbn [bind].
      rewrite (mm_native_ok (negb sg') w') by (auto using flipv_reg'). cbn [bind].
      pose proof (mmean_flip sg' w' R128 a) as MF. cbn [rbits] in MF. rewrite MF. rewrite unflip by apply mmean_fits. reflexivity. }
    destruct w, sg; cbn [red_mm128].
    - apply mm_native_ok; auto; [discriminate|]. intros. apply (FL true W8); [discriminate|]. intros. apply tree_mm_ok; auto using flipv_reg'; apply D; discriminate.
    - apply mm_native_ok; auto; [discriminate|]. intros. apply tree_mm_ok; auto; apply D; discriminate.
    - apply mm_native_ok; auto; [discriminate|]. intros. apply tree_mm_ok; auto; apply D; discriminate.
    - apply mm_native_ok; auto; [discriminate|]. intros. apply (FL false W16); [discriminate|]. intros. apply tree_mm_ok; auto using flipv_reg'; apply D; discriminate.
    - apply mm_native_ok; auto; [discriminate|]. intros. apply tree_mm_ok; auto; apply D; discriminate.
    - apply mm_native_ok; auto. discriminate.
    - cbn [rmm_ok] in HO. rewrite B, N. assert (HMS : use_msa A = false) by (destruct (use_msa A); auto; discriminate HO).
      assert (T : minmax_missing A W64 R128 = false -> tree_mm A fp mx true W64 a = Ok (mmean true W64 128 a)).
      { intros. apply tree_mm_ok; auto. intros _ _ E. fcontra. }
      rewrite HMS in *. cbn [negb andb] in HO. clear - HV HO T HMS. unfold minmax_missing in T.
      unfold use_neon64, use_neon32 in *. fam HV; rw_flags; rewrite ?orb_false_r, ?andb_false_r; repeat (split_if; auto);
      try (apply T; rw_flags; reflexivity).
      all: exfalso; first [fcontra | match goal with E : use_neon A = true |- _ => rewrite E in HO; discriminate HO end].
    - cbn [rmm_ok] in HO. rewrite B, N.
      assert (T : minmax_missing A W64 R128 = false -> tree_mm A fp mx false W64 a = Ok (mmean false W64 128 a)).
      { intros. apply tree_mm_ok; auto. discriminate. }
      clear - HV HO T. unfold minmax_missing in T.
      unfold use_neon64, use_neon32 in *. fam HV; rw_flags; rewrite ?orb_false_r, ?andb_false_r; repeat (split_if; auto);
      try (apply T; rw_flags; reflexivity).
      all: try reflexivity.
      all: exfalso; first [fcontra | match goal with E : use_msa A = true |- _ => rewrite E in HO; destruct mx; discriminate end].
  Qed.
  Definition mred sg w l := red mfx (m_init mx sg (wb w)) (map (value sg (wb w)) l).
  Lemma rmm_missing w s : s <> R128 -> avail_et A (iet w) s = true -> minmax_missing A w R128 = false.
  Proof.
    intros Hs HA. destruct (avail_256 A (iet w) s HV HA) as [H|H]; [|contradiction]. destruct w; auto. cbn in H |- *.
    rewrite H, andb_false_r. cbn [orb]. unfold use_neon64. clear - HV H. fam HV; rw_flags; try reflexivity; exfalso; vimp HV.
  Qed.
  Lemma red_mm1_ok sg w s a : rmm_ok sg w true = true -> avail_et A (iet w) s = true -> reg (rbits s) a ->
    red_mm1 A fp mx sg w s a = Ok (mmean sg w (rbits s) a).
  Proof.
    intros HO HA Ha. unfold red_mm1. apply red_wide_mm; auto.
    - intros Hs. apply (rmm_missing w s); auto.
    - intros. apply red_mm128_ok; auto.
  Qed.
  Lemma reduce_mm_ok sg w s va : avail_int A (wb w) s = true -> rmm_ok sg w (Nat.eqb (length va) 1) = true -> wfv s va -> va <> [] ->
    reduce_mm A fp mx sg w s va = Ok (mred sg w (lanes (wb w) s va)).
  Proof.
    intros HA0 HO Hva Hn. assert (HA : avail_et A (iet w) s = true) by (destruct w; exact HA0).
    assert (ONE : rmm_ok sg w true = true -> forall a, reg (rbits s) a -> red_mm1 A fp mx sg w s a = Ok (mmean sg w (rbits s) a)).
    { intros. apply red_mm1_ok; auto. }
    destruct va as [|a [|b va]]; [contradiction| |].
    - inversion Hva; subst. cbn [reduce_mm]. rewrite ONE by auto. f_equal. unfold mmean, mean, mred, lanes. cbn [flat_map]. rewrite app_nil_r. reflexivity.
    - cbn [length Nat.eqb] in HO. unfold reduce_mm. set (l := a :: b :: va) in *. fold (mty sg w).
      assert (N : use_sse2 A = false -> null_redN (mty sg w) (mty sg w) (m_null mx) (m_init mx sg (wb w)) l = Ok (mred sg w (lanes (wb w) s l))).
      { intros HS. rewrite (narrow A (wb w) s HV HA0 HS). apply null_mmN. }
      assert (B : blocks_red A fp mx sg w s l = Ok (mred sg w (lanes (wb w) s l))) by (apply blocks_red_ok; auto).
      assert (M : rmm_ok sg w true = true -> minmax_missing A w R128 = false -> red_multi (m_op A mx sg w s) (red_mm1 A fp mx sg w s) l = Ok (mred sg w (lanes (wb w) s l))).
      { intros. apply red_multi_mm; auto. }
      assert (FM : w <> W64 -> use_sse2 A = true -> use_sse41 A = false -> flip_multi A fp mx sg w s l = Ok (mred sg w (lanes (wb w) s l))).
      { intros Hw H2 H4. assert (s = R128) as -> by (destruct s; auto; exfalso; destruct w; cbn in HA; vimp HV).
        unfold flip_multi. rewrite flips_ok by auto. cbn [bind].
        assert (R : forall w, w <> W64 -> rmm_ok (negb sg) w true = true) by (intros w' H; destruct w'; auto; contradiction).
        rewrite red_multi_mm.
        - cbn [bind]. f_equal. pose proof (lanes_flip sg w R128 l) as LF. cbn [rbits] in LF. rewrite LF, red_shift. apply unflip.
          apply (red_P mfx (m_init mx sg (wb w)) (fun x => fits (mty sg w) x = true) (m_P_e sg w) (m_P_f sg w)).
          apply (lanes_P (fun x => fits (mty sg w) x = true)); [apply m_vP|destruct w; reflexivity].
        - destruct w; auto; contradiction.
        - destruct w; reflexivity.
        - apply Forall_forall. intros x Hx. apply in_map_iff in Hx as (y & <- & Hy). apply flipv_reg'. exact (proj1 (Forall_forall _ _) Hva y Hy).
        - unfold l. discriminate.
        - intros x Hx. apply red_mm128_ok; auto. }
      clear - HV HO N B M FM.
      assert (G : w <> W64 -> rmm_ok sg w true = true /\ minmax_missing A w R128 = false) by (intros H; destruct w; auto; contradiction).
      assert (S41 : use_null A = true -> use_sse2 A = false) by (intros; fam HV; auto; fcontra).
      destruct w, sg.
      1,4: destruct (use_null A) eqn:?; auto; destruct (use_sse2 A && negb (use_sse41 A)) eqn:E;
        [apply andb_true_iff in E as [E1 E2]; apply negb_true_iff in E2; apply FM; auto; discriminate | destruct (G ltac:(discriminate)); auto].
      1,2,3,4: destruct (use_null A) eqn:?; auto; destruct (G ltac:(discriminate)); auto.
      + cbn [rmm_ok] in *. assert (HMS : use_msa A = false) by (destruct (use_msa A); auto; discriminate HO).
        rewrite HMS in *. clear G FM S41. cbn [negb andb] in *. unfold minmax_missing in M. unfold use_neon64, use_neon32 in *.
        fam HV; rw_flags; rewrite ?orb_false_r, ?andb_false_r; repeat (split_if; auto).
        all: try (apply M; rw_flags; rewrite ?orb_true_r; reflexivity).
        all: exfalso; fcontra.
      + cbn [rmm_ok] in *. clear G FM S41. unfold minmax_missing in M. unfold use_neon64, use_neon32 in *.
        fam HV; rw_flags; rewrite ?orb_false_r, ?andb_false_r; repeat (split_if; auto).
        all: try (apply M; rw_flags; rewrite ?orb_true_r, ?andb_false_r; reflexivity).
        all: try (apply M; [exact HO|rw_flags; reflexivity]).
        all: first [apply N; assumption | exfalso; fcontra].
  Qed.
  (** the fold of min / max is the least / greatest element *)
  Lemma mred_spec sg w l : l <> [] -> Forall (fun x => 0 <= x < 2 ^ wb w) l ->
    (if mx then greatest else least) (map (value sg (wb w)) l) (mred sg w l).
  Proof.
    intros Hn Hl. unfold mred. set (e := m_init mx sg (wb w)).
    assert (HP : Forall (fun x => fits (mty sg w) x = true) (map (value sg (wb w)) l)).
    { clear Hn. induction Hl; constructor; auto. apply m_vP; auto. }
    assert (Hm : map (value sg (wb w)) l <> []) by (destruct l; [contradiction|discriminate]).
    revert Hm HP. generalize (map (value sg (wb w)) l) as m. clear l Hn Hl. induction m as [|x m IH]; intros Hn HP; [contradiction|].
    inversion HP; subst. destruct m as [|y m].
    - assert (E : red mfx e [x] = x).
      { apply (red_one mfx e (fun x => fits (mty sg w) x = true) (m_comm sg w) (m_P_e sg w) (m_f_e sg w)); auto. }
      rewrite E. unfold greatest, least. destruct mx; (split; [left; reflexivity|]; intros z [->|[]]; lia).
    - specialize (IH ltac:(discriminate) ltac:(auto)). change (red mfx e (x :: y :: m)) with (mfx x (red mfx e (y :: m))).
      set (q := red mfx e (y :: m)) in *. unfold mf, greatest, least in *. destruct mx; destruct IH as [I1 I2]; split.
      + destruct (Z.max_spec x q) as [[_ ->]|[_ ->]]; [right; exact I1|left; reflexivity].
      + intros z [->|Hz]; [lia|]. specialize (I2 z Hz). lia.
      + destruct (Z.min_spec x q) as [[_ ->]|[_ ->]]; [left; reflexivity|right; exact I1].
      + intros z [->|Hz]; [lia|]. specialize (I2 z Hz). lia.
  Qed.
End MM.
