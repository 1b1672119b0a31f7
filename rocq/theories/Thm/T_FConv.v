(** C50: conversions between float32 and 32-bit integers. *)
From Verif Require Import Proof.FloatsP3 Proof.FloatRoundP Proof.FArithP Proof.CastP Proof.FConvP Proof.FConvP4 Model.FConv Thm.T_Convert.
From Coq Require Import Lia.

(** to_int32(float32): the integer part, when it is an int32_t. *)
Theorem to_int32_float_spec : forall A T, valid_arch A = true -> vsize T ->
  conv_rel 32 32 T T (vregf A T) (vreg A 32 T) (to_int32_f A T) fits_s32 (is (fun x => f_int 32 x mod 2 ^ 32)).
Proof.
  intros A T HV HT. apply (conv_to_int A T HV HT _ fits_s32 (fun x => wrap 32 (f_int 32 x))).
  - intros a Ha Hd. destruct (fi_regs A T HV HT) as [HA _]. apply (i_to_int32_f_ok A HV fits_s32); auto.
    + intros _ x Hx. unfold mm_cvtt_s. rewrite Hx. reflexivity.
    + intros _ x Hx. apply sat_s_fits; auto.
  - intros x _ _. split; [apply wrap_range; lia|reflexivity].
Qed.
(** Otherwise: "SSE specific: If the value can not be represented by int32_t, 0x80000000 is
    returned"; NEON with hardware floats, AltiVec and MSA saturate, and NaN gives 0. *)
Theorem to_int32_float_x86_spec : forall A T, valid_arch A = true -> use_sse2 A = true -> vsize T ->
  conv_rel 32 32 T T (vregf A T) (vreg A 32 T) (to_int32_f A T) all_lanes
    (is (fun x => if fits_s32 x then f_int 32 x mod 2 ^ 32 else 0x80000000)).
Proof.
  intros A T HV HX HT. apply (conv_to_int A T HV HT _ all_lanes mm_cvtt_s).
  - intros a Ha Hd. destruct (fi_regs A T HV HT) as [HA _]. apply (i_to_int32_f_ok A HV all_lanes); auto.
    + fam HV; rw_flags; cbn [orb]; unfold use_neon_no_flt_sp; rw_flags; cbn [andb]; intros; fcontra.
    + rewrite HX, orb_true_r. discriminate.
  - intros x _ _. unfold mm_cvtt_s, is. destruct (fits_s32 x); split; try reflexivity; [apply wrap_range; lia|split; reflexivity || discriminate].
Qed.
Theorem to_int32_float_saturates : forall A T, valid_arch A = true -> use_sse2 A = false -> use_null A = false -> use_neon_no_flt_sp A = false -> vsize T ->
  conv_rel 32 32 T T (vregf A T) (vreg A 32 T) (to_int32_f A T) all_lanes
    (fun x r => if f_nan 32 x then r = 0 else sgn 32 r = Z.max (- 2 ^ 31) (Z.min (2 ^ 31 - 1) (f_int 32 x))).
Proof.
  intros A T HV HX HN HF HT. apply (conv_to_int A T HV HT _ all_lanes sat_s).
  - intros a Ha Hd. destruct (fi_regs A T HV HT) as [HA _]. apply (i_to_int32_f_ok A HV all_lanes); auto.
    + rewrite HN, HF. discriminate.
    + rewrite HX. discriminate.
  - intros x _ _. unfold sat_s, sat_cvt. destruct (f_nan 32 x); [split; [split; reflexivity || discriminate|reflexivity]|].
    split; [apply wrap_range; lia|]. rewrite sgn_wrap. apply sgn_id; [lia|]. change (2 ^ (32 - 1)) with (2 ^ 31). pw. lia.
Qed.
(** to_uint32(float32) *)
Theorem to_uint32_float_spec : forall A T, valid_arch A = true -> vsize T ->
  conv_rel 32 32 T T (vregf A T) (vreg A 32 T) (to_uint32_f A T) fits_u32 (is (f_int 32)).
Proof.
  intros A T HV HT. apply (conv_to_int A T HV HT _ fits_u32 (f_int 32)).
  - intros a Ha Hd. destruct (fi_regs A T HV HT) as [HA _]. apply i_to_uint32_f_ok; auto.
  - intros x _ Hx. apply fits_spec in Hx as [_ Hx]. split; [pw; lia|reflexivity].
Qed.
(** "SSE specific: If the value can not be represented by uint32_t, 0x80000000 is returned" is not
    what happens: -1 gives 0xffffffff and 2^32 gives 0. *)
Theorem to_uint32_float_overflow_refuted :
  to_uint32_f arch_sse2 128 [0xbf800000] = Ok [0xffffffff] /\ fits_u32 0xbf800000 = false /\
  to_uint32_f arch_sse2 128 [0x4f800000] = Ok [0] /\ fits_u32 0x4f800000 = false.
Proof. split; [vm_compute; reflexivity|]. split; [reflexivity|]. split; vm_compute; reflexivity. Qed.

(** to_float32(int32): the nearest number, on every architecture *)
Theorem to_float32_int_spec : forall A T, valid_arch A = true -> vsize T ->
  conv_rel 32 32 T T (vreg A 32 T) (vregf A T) (to_float32_i A T) all_lanes (is (fun x => f_of_int 32 (sgn 32 x))).
Proof.
  intros A T HV HT. destruct (fi_regs A T HV HT) as [HA _]. apply (conv_to_float A T HV HT _ all_lanes (fun x => f_of_int 32 (sgn 32 x))).
  - intros HI a Ha. apply i_to_float32_i_1; auto.
  - intros Es E1 E2 a b Ha Hb. left. rewrite Es. cbn [i_to_float32_i]. rewrite E1, E2. reflexivity.
  - intros x _ _. split; [apply (of_int_ran false)|reflexivity].
Qed.
(** ... [f_of_int] is the nearest number, and exact for integers of up to 24 significant bits. *)
Theorem f_of_int_nearest : forall n, f_neg 32 (f_of_int 32 n) = (n <? 0) /\
  nearest_mag 32 (Z.abs n * 2 ^ fulp 32) 1 (f_mag 32 (f_of_int 32 n)).
Proof. intros n. destruct (of_int_nearest false n). auto. Qed.
Theorem f_of_int_exact : forall n, Z.abs n <= 2 ^ 24 -> f_finite 32 (f_of_int 32 n) = true /\ f_val 32 (f_of_int 32 n) = n * 2 ^ fulp 32.
Proof.
  intros n Hn. apply (of_int_exact false n (Z.abs n) 0); [rewrite Z.pow_0_r; lia| |lia]. change (2 ^ (fmant (fw false) + 1)) with (2 ^ 24). lia.
Qed.
(** round trip: an integer of at most 24 bits comes back *)
Theorem int32_float_round_trip : forall n, Z.abs n <= 2 ^ 24 -> fits_s32 (f_of_int 32 n) = true /\ f_int 32 (f_of_int 32 n) = n.
Proof.
  intros n Hn. destruct (f_of_int_exact n Hn) as [HF Hv].
  assert (E : f_int 32 (f_of_int 32 n) = n). { unfold f_int. rewrite Hv. apply Z.quot_mul. discriminate. }
  split; auto. apply fits_intro; auto. rewrite E. pw. lia.
Qed.

(** to_float32(uint32): the nearest number where x86's biasing does not round twice *)
Definition u_exact (x : Z) : bool := (x <? 2 ^ 31) || (x mod 128 =? 0) || (2 ^ 32 - 2 ^ 24 <=? x).
Theorem to_float32_uint_partial : forall A T, valid_arch A = true -> vsize T ->
  conv_rel 32 32 T T (vreg A 32 T) (vregf A T) (to_float32_u A T)
    (fun x => u_exact x || negb (use_sse2 A) || (use_avx512f A && (256 <=? T))) (is (f_of_int 32)).
Proof.
  intros A T HV HT. destruct (fi_regs A T HV HT) as [HA _].
  apply (conv_to_float A T HV HT _ _ (to_f_u A (vregf A T))).
  - intros HI a Ha. apply i_to_float32_u_1; auto.
  - intros Es E1 E2 a b Ha Hb. right. rewrite Es. apply i_to_float32_u_2; auto.
  - intros x Hx Hd. split; [apply to_f_u_ran; auto|]. unfold is, to_f_u, by_bias.
    destruct (use_sse2 A); [|reflexivity]. cbn [andb negb] in *. rewrite orb_false_r in Hd.
    destruct (u_exact x) eqn:EU.
    + assert (EB : bias x = f_of_int 32 x).
      { unfold u_exact in EU. destruct (Z.ltb_spec x (2 ^ 31)). { apply bias_small. lia. }
        apply bias_exact; [lia|]. cbn [orb] in EU. apply orb_prop in EU as [EU|EU]; [left; apply Z.eqb_eq; auto|right; apply Z.leb_le; auto]. }
      rewrite EB. destruct (match vregf A T with R128 => _ | R256 => _ | R512 => _ end); reflexivity.
    + cbn [orb] in Hd. apply andb_prop in Hd as [E1 E2]. apply Z.leb_le in E2.
      assert (vregf A T <> R128) as Hs. { unfold vregf, fast_flt. rewrite E1. destruct (Z.leb_spec T 128); [lia|]. destruct (T <=? 256); discriminate. }
      rewrite E1. destruct (vregf A T); [contradiction|reflexivity|reflexivity].
Qed.
(** every conversion is less than one unit in the last place (256 for numbers from 2^31 on) off *)
Theorem to_float32_uint_error : forall A T, valid_arch A = true -> vsize T ->
  conv_rel 32 32 T T (vreg A 32 T) (vregf A T) (to_float32_u A T) all_lanes
    (fun x r => f_finite 32 r = true /\ (x < 2 ^ 31 -> r = f_of_int 32 x) /\ Z.abs (f_val 32 r - x * 2 ^ fulp 32) <= 192 * 2 ^ fulp 32).
Proof.
  intros A T HV HT. destruct (fi_regs A T HV HT) as [HA _].
  apply (conv_to_float A T HV HT _ _ (to_f_u A (vregf A T))).
  - intros HI a Ha. apply i_to_float32_u_1; auto.
  - intros Es E1 E2 a b Ha Hb. right. rewrite Es. apply i_to_float32_u_2; auto.
  - intros x Hx _. split; [apply to_f_u_ran; auto|].
    assert (HD : f_finite 32 (f_of_int 32 x) = true /\ Z.abs (f_val 32 (f_of_int 32 x) - x * one) <= 192 * one).
    { destruct (of_int_parts x) as (HF & Hr & HN & Hv & _); [pw; lia|]. split; auto. rewrite Hv. destruct (Z.ltb_spec x 0); [lia|].
      rewrite Z.abs_eq in HN by lia.
      destruct (near_grid x 128 ltac:(lia)) as (j & Hj). pose proof one_p.
      pose proof (near_rep _ _ j 8 HN ltac:(pw; lia) ltac:(lia)) as HH. pw.
      replace (j * 256 * one - x * one) with ((2 * 128 * j - x) * one) in HH by ring. rewrite Z.abs_mul, (Z.abs_eq one) in HH by lia. nia. }
    unfold to_f_u. destruct (by_bias A (vregf A T)).
    + destruct (Z.lt_ge_cases x (2 ^ 31)).
      * rewrite bias_small by lia. tauto.
      * destruct (bias_err x) as [B1 B2]; [lia|]. split; auto. split; [lia|auto].
    + tauto.
Qed.
(** The biased sum rounds twice: 0x80000081 is nearest to 0x80000100, but x86 gives 0x80000000. *)
Theorem to_float32_uint_refuted :
  to_float32_u arch_sse2 128 [0x80000081] = Ok [0x4f000000] /\ f_of_int 32 0x80000081 = 0x4f000001.
Proof. split; vm_compute; reflexivity. Qed.

(** to_float32 of 8- and 16-bit integers is exact. *)
Theorem to_float32_small_spec : forall A sg w T va, valid_arch A = true -> vsize T -> w = 8 \/ w = 16 -> typed A w T va ->
  exists vr, to_float32_small A sg w T va = Ok vr /\ wfv (vregf A (T * 32 / w)) vr /\
    Z.of_nat (length vr) * rbits (vregf A (T * 32 / w)) = T * 32 / w /\
    Forall2 (fun x r => f_finite 32 r = true /\ f_val 32 r = (if sg then sgn w x else x) * 2 ^ fulp 32)
      (tlanes A w T va) (lanes 32 (vregf A (T * 32 / w)) vr).
Proof.
  intros A sg w T va HV HT Hw Ht.
  destruct (to_int_widen_spec_partial A sg w 32 T HV HT) with (va := va) as (v & Ev & [Wv Lv] & El); auto; try (destruct Hw; lia).
  unfold to_float32_small. rewrite Ev. cbn [bind].
  assert (HT' : vsize (T * 32 / w)).
  { destruct HT as [k ->]. destruct Hw as [-> | ->].
    - exists (S (S k)). rewrite !Nat2Z.inj_succ, !Z.pow_succ_r by lia. replace (128 * 2 ^ Z.of_nat k * 32) with (128 * (2 * (2 * 2 ^ Z.of_nat k)) * 8) by ring. apply Z.div_mul. lia.
    - exists (S k). rewrite !Nat2Z.inj_succ, !Z.pow_succ_r by lia. replace (128 * 2 ^ Z.of_nat k * 32) with (128 * (2 * 2 ^ Z.of_nat k) * 16) by ring. apply Z.div_mul. lia. }
  assert (HR : Forall (fun x => 0 <= x < 2 ^ w) (tlanes A w T va)).
  { apply Forall_forall. intros x Hx. unfold tlanes, lanes in Hx. apply in_flat_map in Hx as (a & _ & Hx). unfold elems in Hx. apply in_map_iff in Hx as (i & <- & _). apply lane_range. lia. }
  assert (HX : forall x, 0 <= x < 2 ^ w -> let n := if sg then sgn w x else x in Z.abs n <= 2 ^ 24 /\ sgn 32 (s_extend sg w 32 x) = n /\ s_extend sg w 32 x = n mod 2 ^ 32 /\ (sg = false -> 0 <= n < 2 ^ 31)).
  { intros x Hx. cbv zeta. assert (Hn : - 32768 <= (if sg then sgn w x else x) < 65536).
    { pose proof (sgn_range w x ltac:(lia)). destruct Hw as [-> | ->]; [change (2 ^ 8) with 256 in *; change (2 ^ (8 - 1)) with 128 in *|change (2 ^ 16) with 65536 in *; change (2 ^ (16 - 1)) with 32768 in *]; destruct sg; lia. }
    assert (E : s_extend sg w 32 x = (if sg then sgn w x else x) mod 2 ^ 32). { unfold s_extend. destruct sg; [reflexivity|]. symmetry. apply Z.mod_small. pw. lia. }
    split; [pw; lia|]. split; [rewrite E; change (?a mod 2 ^ 32) with (wrap 32 a); rewrite sgn_wrap; apply sgn_id; [lia|]; change (2 ^ (32 - 1)) with 2147483648; lia|]. split; auto. intros ->. pw. lia. }
  unfold tlanes in El. fold (tlanes A w T va) in El.
  assert (HF : forall (P Q : Z -> Z -> Prop) (l r : list Z), Forall (fun x => 0 <= x < 2 ^ w) l -> (forall x y, 0 <= x < 2 ^ w -> P (s_extend sg w 32 x) y -> Q x y) ->
     Forall2 P (map (s_extend sg w 32) l) r -> Forall2 Q l r).
  { intros P Q l. induction l as [|x l IH]; intros r Hl HPQ H; inversion H; subst; constructor; inversion Hl; subst; auto. }
  destruct sg.
  - destruct (to_float32_int_spec A (T * 32 / w) HV HT' v Wv Lv) as (vr & Er & Wr & Lr & HP).
    { apply forallb_forall. reflexivity. }
    exists vr. split; auto. split; auto. split; auto. rewrite El in HP.
    eapply HF; [exact HR| |exact HP]. intros x y Hx Hy. unfold is in Hy. subst y. destruct (HX x Hx) as (B & E & _ & _). rewrite E. apply f_of_int_exact; auto.
  - destruct (to_float32_uint_error A (T * 32 / w) HV HT' v Wv Lv) as (vr & Er & Wr & Lr & HP).
    { apply forallb_forall. reflexivity. }
    exists vr. split; auto. split; auto. split; auto. rewrite El in HP.
    eapply HF; [exact HR| |exact HP]. intros x y Hx (_ & Hy & _). cbn [s_extend] in Hy. destruct (HX x Hx) as (B & _ & _ & D). cbn iota in *.
    unfold s_extend in Hy. rewrite Hy by (destruct (D eq_refl); lia). apply f_of_int_exact; auto.
Qed.

(** Concrete cases: -2.75 and 3e9 *)
Example fconv_case :
  to_int32_f arch_avx 256 [0xc0300000] = Ok [0xfffffffe; 0] /\
  fits_s32 0xc0300000 = true /\ f_int 32 0xc0300000 = -2 /\
  to_uint32_f arch_sse2 128 [0x4f32d05e] = Ok [3000000000 - 3000000000 mod 256] /\
  to_int32_f arch_neon64 128 [0x7f800000] = Ok [0x7fffffff] /\
  to_float32_i arch_avx 256 [0xfffffffe; 0] = Ok [0xc0000000].
Proof. split; [vm_compute; reflexivity|]. split; [reflexivity|]. split; [reflexivity|]. split; [vm_compute; reflexivity|]. split; vm_compute; reflexivity. Qed.
