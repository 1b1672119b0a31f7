(** C09: shifts by a uniform count. *)
From Verif Require Import Proof.ShiftP.

Lemma shl_spec_w w c x : 0 <= c -> wrap w (Z.shiftl x c) = s_shl w c x.
Proof. intros. rewrite Z.shiftl_mul_pow2 by lia. reflexivity. Qed.
Lemma shr_u_spec_w w c x : 0 < w -> 0 <= c -> 0 <= x < 2 ^ w -> wrap w (Z.shiftr x c) = s_shr_u w c x.
Proof.
  intros Hw Hc Hx. rewrite Z.shiftr_div_pow2 by lia. apply Z.mod_small. unfold s_shr_u.
  assert (0 < 2 ^ c) by (apply Z.pow_pos_nonneg; lia). split; [apply Z.div_pos; lia|].
  apply Z.div_lt_upper_bound; nia.
Qed.
Lemma shr_s_spec_w w c x : 0 <= c -> wrap w (Z.shiftr (sgn w x) c) = s_shr_s w c x.
Proof. intros. rewrite Z.shiftr_div_pow2 by lia. reflexivity. Qed.

(** Run-time counts. *)
Theorem shift_l_spec : forall A w s c, valid_arch A = true -> avail_int A (wb w) s = true -> 0 <= c < wb w ->
  computes1 (wb w) s (fun va => shift_l A w s va c) (s_shl (wb w) c).
Proof.
  intros A w s c HV HA Hc. apply (lift1w _ _ _ (fun x => Z.shiftl x c)); auto using wok_lib.
  - intros. apply shl_spec_w. lia.
  - intros. rewrite i_shift_l_ok by auto. reflexivity.
Qed.
Theorem shift_r_unsigned_spec : forall A w s c, valid_arch A = true -> avail_int A (wb w) s = true -> 0 <= c < wb w ->
  computes1 (wb w) s (fun va => shift_r A false w s va c) (s_shr_u (wb w) c).
Proof.
  intros A w s c HV HA Hc. apply (lift1w _ _ _ (fun x => Z.shiftr x c)); auto using wok_lib.
  - intros. apply shr_u_spec_w; auto using wb_pos; lia.
  - intros. rewrite i_shift_r_ok by auto. reflexivity.
Qed.
Theorem shift_r_signed_spec : forall A w s c, valid_arch A = true -> avail_int A (wb w) s = true -> 0 <= c < wb w ->
  computes1 (wb w) s (fun va => shift_r A true w s va c) (s_shr_s (wb w) c).
Proof.
  intros A w s c HV HA Hc. apply (lift1w _ _ _ (fun x => Z.shiftr (sgn (wb w) x) c)); auto using wok_lib.
  - intros. apply shr_s_spec_w. lia.
  - intros. rewrite i_shift_r_ok by auto. reflexivity.
Qed.
(** Compile-time counts, including 0. *)
Lemma computes1_id w s f : wok w (rbits s) = true -> (forall x, 0 <= x < 2 ^ w -> f x = x) -> computes1 w s (fun va => Ok va) f.
Proof.
  intros Hw Hf va Ha. exists va. repeat split; auto. destruct (wok_spec _ _ Hw) as (Hp & _).
  unfold lanes. induction va as [|a va IH]; [reflexivity|]. cbn [flat_map]. rewrite map_app, <- IH by (apply wfv_cons in Ha; tauto).
  f_equal. unfold elems. rewrite map_map. apply map_ext. intros. symmetry. apply Hf. apply lane_range. lia.
Qed.
Theorem shift_l_t_spec : forall A w s c, valid_arch A = true -> avail_int A (wb w) s = true -> 0 <= c < wb w ->
  computes1 (wb w) s (shift_l_t A w s c) (s_shl (wb w) c).
Proof.
  intros A w s c HV HA Hc. unfold shift_l_t. destruct (Z.eqb_spec c 0) as [->|].
  - apply computes1_id; [apply wok_lib|]. intros. unfold s_shl. rewrite Z.mul_1_r. apply Z.mod_small; auto.
  - apply (lift1w _ _ _ (fun x => Z.shiftl x c)); auto using wok_lib.
    + intros. apply shl_spec_w. lia.
    + intros. rewrite i_shift_l_t_ok by auto. reflexivity.
Qed.
Theorem shift_r_t_unsigned_spec : forall A w s c, valid_arch A = true -> avail_int A (wb w) s = true -> 0 <= c < wb w ->
  computes1 (wb w) s (shift_r_t A false w s c) (s_shr_u (wb w) c).
Proof.
  intros A w s c HV HA Hc. unfold shift_r_t. destruct (Z.eqb_spec c 0) as [->|].
  - apply computes1_id; [apply wok_lib|]. intros. apply Z.div_1_r.
  - apply (lift1w _ _ _ (fun x => Z.shiftr x c)); auto using wok_lib.
    + intros. apply shr_u_spec_w; auto using wb_pos; lia.
    + intros. rewrite i_shift_r_t_ok by auto. reflexivity.
Qed.
Theorem shift_r_t_signed_spec : forall A w s c, valid_arch A = true -> avail_int A (wb w) s = true -> 0 <= c < wb w ->
  computes1 (wb w) s (shift_r_t A true w s c) (s_shr_s (wb w) c).
Proof.
  intros A w s c HV HA Hc. unfold shift_r_t. destruct (Z.eqb_spec c 0) as [->|].
  - apply computes1_id; [apply wok_lib|]. intros. unfold s_shr_s. rewrite Z.div_1_r.
    change (wrap (wb w) (sgn (wb w) x) = x). rewrite wrap_sgn by apply wb_pos. apply Z.mod_small; auto.
  - apply (lift1w _ _ _ (fun x => Z.shiftr (sgn (wb w) x) c)); auto using wok_lib.
    + intros. apply shr_s_spec_w. lia.
    + intros. rewrite i_shift_r_t_ok by auto. reflexivity.
Qed.
(** non-trivial cases: int8 on SSE2 (emulated), int64 on AVX2 (emulated by bias) *)
Example shift_case :
  shift_r arch_sse2 true W8 R128 [0x80ff7f01] 3 = Ok [0xf0ff0f00] /\
  shift_r_t arch_avx2 true W64 R256 60 [2 ^ 63] = Ok [2 ^ 64 - 8] /\
  shift_l arch_sse2 W8 R128 [0xff81] 7 = Ok [0x8080].
Proof. repeat split; vm_compute; reflexivity. Qed.
(** Outside the stated range the scalar backend is undefined, as the C++ operator is. *)
Theorem shift_count_out_of_range_refuted :
  exists c, c = wb W32 /\ shift_l arch_null W32 R128 [1] c = UB.
Proof. exists 32. split; [reflexivity|vm_compute; reflexivity]. Qed.
