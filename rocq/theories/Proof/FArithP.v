(** Multiplication, division, square root, fused multiply-add: every ladder, ranges. *)
From Verif Require Import Proof.FloatsP3 Proof.FloatRoundP Model.FArith.

Ltac hypfalse := exfalso; match goal with H : ?x = false |- _ => lazymatch x with _ && _ => revert H; rw_flags; cbn [orb andb negb]; discriminate | _ || _ => revert H; rw_flags; cbn [orb andb negb]; discriminate end end.
Ltac natl HV := fl_unf; fam HV; rw_flags; cbn [orb andb negb]; repeat split_if;
  first [ reflexivity
        | match goal with H : _ -> ?n = ?m |- ?n = ?m => apply H; rw_flags; reflexivity end
        | discriminate | fcontra | hypfalse | vimp HV ].
Lemma native_ladder {X} A d (v : X) neon ppc : valid_arch A = true -> ftz A d = false ->
  (use_neon64 A = true -> neon = Ok v) -> (use_vsx206 A = true -> ppc = Ok v) ->
  fl_ladder A d (Ok v) (Ok v) neon ppc (Ok v) = Ok v.
Proof.
  intros HV HZ Hn Hp. unfold fl_ladder. fl_unf. destruct (use_64 A) eqn:E64, (use_vsx206 A) eqn:E206; destruct d; natl HV.
Qed.

Section R.
  Variable d : bool.
  Local Notation w := (fw d).
  Lemma fulp_pos : 0 <= fulp w. Proof. destruct d; vm_compute; discriminate. Qed.
  Lemma abs_val_nonneg x : 0 <= f_abs_val w x.
  Proof.
    unfold f_abs_val. pose proof (PM d).
    assert (B : 0 <= f_mag w x mod 2 ^ fmant w) by (apply Z.mod_pos_bound; auto). destruct (_ =? 0); auto.
    apply Z.mul_nonneg_nonneg; [lia|]. apply Z.pow_nonneg. lia.
  Qed.
  Lemma sg_ran b r : 0 <= r <= f_inf w -> 0 <= f_sign w b + r < 2 ^ w.
  Proof.
    intros Hr. pose proof (inf_small d). assert (2 ^ w = 2 * 2 ^ (w - 1)) by (destruct d; reflexivity).
    unfold f_sign. destruct b; lia.
  Qed.
  Lemma inf_ran : 0 <= f_inf w <= f_inf w. Proof. destruct d; vm_compute; split; discriminate. Qed.
  Lemma round_ran n k : 0 <= n -> 0 <= k -> 0 <= f_round w n k <= f_inf w.
  Proof. intros. apply (f_round_nearest d n k); auto. Qed.
  Lemma sign_ran b : 0 <= f_sign w b < 2 ^ w.
  Proof. pose proof (sg_ran b 0). rewrite Z.add_0_r in H. apply H. pose proof inf_ran. lia. Qed.
  Lemma f_mul_ran x y : 0 <= f_mul w x y < 2 ^ w.
  Proof.
    pose proof (f_qnan_ran d). pose proof inf_ran. pose proof fulp_pos. unfold f_mul.
    destruct (f_unord w x y); auto. destruct (f_isinf w x); [destruct (f_zero w y); auto; apply sg_ran; auto|].
    destruct (f_isinf w y); [destruct (f_zero w x); auto; apply sg_ran; auto|].
    apply sg_ran, round_ran; auto. pose proof (abs_val_nonneg x). pose proof (abs_val_nonneg y). nia.
  Qed.
  Lemma zero_val y : 0 <= y < 2 ^ w -> f_zero w y = false -> 0 < f_abs_val w y.
  Proof.
    intros Hy Hz. unfold f_zero in Hz. pose proof (f_mag_range d y). unfold f_abs_val. pose proof (PM d).
    assert (B : 0 <= f_mag w y mod 2 ^ fmant w < 2 ^ fmant w) by (apply Z.mod_pos_bound; auto).
    destruct (Z.eqb_spec (f_mag w y / 2 ^ fmant w) 0) as [E0|E0].
    - pose proof (Z.div_mod (f_mag w y) (2 ^ fmant w) ltac:(lia)). rewrite E0 in *. lia.
    - assert (0 <= f_mag w y / 2 ^ fmant w) by (apply Z.div_pos; lia). 
      apply Z.mul_pos_pos; [lia|]. apply Z.pow_pos_nonneg; lia.
  Qed.
  Lemma f_div_ran x y : 0 <= y < 2 ^ w -> 0 <= f_div w x y < 2 ^ w.
  Proof.
    intros Hy. pose proof (f_qnan_ran d). pose proof inf_ran. pose proof fulp_pos. unfold f_div.
    destruct (f_unord w x y); auto. destruct (f_isinf w x); [destruct (f_isinf w y); auto; apply sg_ran; auto|].
    destruct (f_isinf w y); [apply sign_ran|].
    destruct (f_zero w y) eqn:Hz; [destruct (f_zero w x); auto; apply sg_ran; auto|].
    apply sg_ran. pose proof (abs_val_nonneg x). pose proof (zero_val y Hy Hz).
    apply (f_round_q_nearest d); auto. apply Z.mul_nonneg_nonneg; auto. apply Z.pow_nonneg; lia.
  Qed.
  Lemma f_fma_ran x y t : 0 <= t < 2 ^ w -> 0 <= f_fma w x y t < 2 ^ w.
  Proof.
    intros Ht. pose proof (f_qnan_ran d). pose proof inf_ran. pose proof fulp_pos. unfold f_fma.
    destruct (_ || _ || _); auto. destruct (_ || _).
    { destruct (_ || _); auto. destruct (_ && _); auto. apply sg_ran; auto. }
    destruct (f_isinf w t); auto. destruct (_ =? 0); [apply sign_ran|]. apply sg_ran, round_ran; auto. lia.
  Qed.
  (** the square root of a positive number *)
  Lemma root_of x : 0 <= x < 2 ^ w -> f_finite w x = true -> f_zero w x = false ->
    nearest_root w (f_abs_val w x * 2 ^ fulp w) (f_root w (f_abs_val w x * 2 ^ fulp w)).
  Proof.
    intros Hx Hf Hz. pose proof (zero_val x Hx Hz) as VP. pose proof (PM d). destruct (fM d) as [M1 E2].
    assert (V1 : exists mu t, f_abs_val w x = mu * 2 ^ t /\ 0 < mu < 2 ^ (fmant w + 1) /\ 0 <= t).
    { rewrite Z.pow_add_r by lia. change (2 ^ 1) with 2.
      assert (B : 0 <= f_mag w x mod 2 ^ fmant w < 2 ^ fmant w) by (apply Z.mod_pos_bound; auto).
      assert (B' : 0 <= f_mag w x / 2 ^ fmant w) by (apply Z.div_pos; [apply (f_mag_range d x)|auto]).
      unfold f_abs_val in *. destruct (Z.eqb_spec (f_mag w x / 2 ^ fmant w) 0).
      - exists (f_mag w x mod 2 ^ fmant w), 0. split; [cbn; lia|]. split; lia.
      - exists (2 ^ fmant w + f_mag w x mod 2 ^ fmant w), (f_mag w x / 2 ^ fmant w - 1). split; auto. split; lia. }
    assert (VU : f_abs_val w x < 2 ^ (fmant w + fexp d - 1)).
    { pose proof (f_mag_range d x). unfold f_finite in Hf. apply Z.ltb_lt in Hf.
      rewrite <- val_inf. replace (f_abs_val w x) with (f_abs_val w (f_mag w x)).
      - apply val_mono; auto; lia.
      - unfold f_abs_val. rewrite (mag_id d (f_mag w x)) by lia. reflexivity. }
    destruct V1 as (mu & t & E1 & Hmu & Ht). rewrite E1 in *. pose proof fulp_pos.
    rewrite <- Z.mul_assoc, <- Z.pow_add_r by lia. apply (f_root_nearest d mu (t + fulp w)); auto; [lia| |].
    - rewrite (Z.pow_add_r 2 t (fulp w)) by lia. rewrite Z.mul_assoc.
      assert (L : 2 ^ (2 * fmant w + 2) <= 2 ^ fulp w) by (apply Z.pow_le_mono_r; [lia|destruct d; vm_compute; discriminate]).
      assert (1 * 2 ^ fulp w <= mu * 2 ^ t * 2 ^ fulp w) by (apply Z.mul_le_mono_nonneg_r; lia). lia.
    - rewrite (Z.pow_add_r 2 t (fulp w)) by lia. rewrite Z.mul_assoc.
      assert (P : 0 < 2 ^ fulp w) by (apply Z.pow_pos_nonneg; lia).
      assert (mu * 2 ^ t * 2 ^ fulp w < 2 ^ (fmant w + fexp d - 1) * 2 ^ fulp w) by (apply Z.mul_lt_mono_pos_r; auto).
      rewrite <- Z.pow_add_r in H1 by lia.
      assert (2 ^ (fmant w + fexp d - 1 + fulp w) <= 2 ^ (2 * (fmant w + fexp d - 2))).
      { apply Z.pow_le_mono_r; [lia|]. destruct d; vm_compute; discriminate. }
      lia.
  Qed.
  Lemma f_sqrt_ran x : 0 <= x < 2 ^ w -> 0 <= f_sqrt w x < 2 ^ w.
  Proof.
    intros Hx. pose proof (f_qnan_ran d). unfold f_sqrt. destruct (f_nan w x) eqn:Hn; auto. destruct (f_zero w x) eqn:Hz; auto.
    destruct (f_neg w x); auto. destruct (f_isinf w x) eqn:Hi; auto.
    assert (Hf : f_finite w x = true).
    { unfold f_nan in Hn. unfold f_isinf in Hi. unfold f_finite. apply Z.ltb_lt. apply Z.ltb_ge in Hn. apply Z.eqb_neq in Hi. lia. }
    destruct (root_of x Hx Hf Hz) as [B _]. pose proof (sg_ran false (f_root w (f_abs_val w x * 2 ^ fulp w)) ltac:(lia)) as G. 
    unfold f_sign in G. lia.
  Qed.
  (** a product that is not zero is not changed by adding zero *)
  Lemma f_fma_zero x y : f_zero w x = false -> f_zero w y = false -> 0 <= x < 2 ^ w -> 0 <= y < 2 ^ w ->
    f_fma w x y 0 = f_mul w x y.
  Proof.
    intros Hx Hy Rx Ry. assert (Z0 : f_nan w 0 = false) by (destruct d; reflexivity). assert (Z1 : f_isinf w 0 = false) by (destruct d; reflexivity).
    assert (Z2 : f_val w 0 = 0) by (destruct d; reflexivity).
    unfold f_fma, f_mul, f_unord. rewrite Z0, Z1, Z2, Hx, Hy. cbn [andb]. rewrite Bool.orb_false_r.
    destruct (f_nan w x || f_nan w y); auto. destruct (f_isinf w x); cbn [orb]; auto. destruct (f_isinf w y); auto.
    pose proof (zero_val x Rx Hx) as Px. pose proof (zero_val y Ry Hy) as Py.
    assert (E1 : f_val w x * f_val w y + 0 * 2 ^ fulp w = if xorb (f_neg w x) (f_neg w y) then - (f_abs_val w x * f_abs_val w y) else f_abs_val w x * f_abs_val w y).
    { unfold f_val. destruct (f_neg w x), (f_neg w y); cbn [xorb]; ring. }
    rewrite E1. assert (PP : 0 < f_abs_val w x * f_abs_val w y) by nia. destruct (xorb _ _).
    - destruct (Z.eqb_spec (- (f_abs_val w x * f_abs_val w y)) 0); [lia|]. destruct (Z.ltb_spec (- (f_abs_val w x * f_abs_val w y)) 0); [|lia].
      rewrite Z.abs_opp, Z.abs_eq by lia. reflexivity.
    - destruct (Z.eqb_spec (f_abs_val w x * f_abs_val w y) 0); [lia|]. destruct (Z.ltb_spec (f_abs_val w x * f_abs_val w y) 0); [lia|].
      rewrite Z.abs_eq by lia. reflexivity.
  Qed.
End R.

(** float32 multiplication is vec_madd *)
Definition by_madd (A : arch) (d : bool) : bool := negb d && use_altivec A && negb (use_vsx206 A).
(** float32 square roots from estimates *)
Definition by_rsqrt (A : arch) (d : bool) : bool := negb d && (use_altivec A || use_neon_flt_sp A && negb (use_64 A)).
(** configurations in which fmadd and fmsub exist and mean what they say *)
Definition fma_here (A : arch) (s : rsz) : bool :=
  match s with R128 => use_null A || use_fma3 A || use_fma4 A | R256 => use_fma3 A || use_fma4 A | R512 => true end.

Section F.
  Variables (A : arch) (d : bool) (s : rsz).
  Hypotheses (HV : valid_arch A = true) (HA : avail_flt A s = true).
  Local Notation w := (fw d).
  Local Notation R := (rbits s).
  Local Notation z := (fz (ftz A d) w).
  Lemma madd_ftz : by_madd A d = true -> ftz A d = true.
  Proof. unfold by_madd. destruct d; cbn [negb andb]; [discriminate|]. fl_unf. destruct (use_altivec A), (use_vsx206 A); cbn [negb andb orb]; rewrite ?Bool.orb_true_r; intros; first [discriminate|reflexivity]. Qed.
  Theorem i_fmul_ok a b : i_fmul A d s a b =
    Ok (v2 w R (fun x y => z (if by_madd A d then f_fma w (z x) (z y) 0 else f_mul w (z x) (z y))) a b).
  Proof.
    unfold i_fmul. pose proof madd_ftz as MF. pose proof (ftz_wide A d s HV HA) as FW.
    set (T := v2 w R (fun x y => z (if by_madd A d then f_fma w (z x) (z y) 0 else f_mul w (z x) (z y))) a b).
    assert (Hx : ftz A d = false -> v2 w R (f_mul w) a b = T).
    { intros E. unfold T, fz. rewrite E. destruct (by_madd A d); [rewrite MF in E by auto; discriminate|]. reflexivity. }
    assert (Hh : by_madd A d = false -> v2 w R (fun x y => z (f_mul w (z x) (z y))) a b = T) by (intros E; unfold T; rewrite E; reflexivity).
    assert (Hm : by_madd A d = true -> v2 w R (fun x y => z (f_fma w (z x) (z y) 0)) a b = T) by (intros E; unfold T; rewrite E; reflexivity).
    clearbody T. destruct s; cbn [fl_sizes avail_flt rbits] in *.
    - clear MF FW. unfold fl_ladder.
      set (X := v2 w 128 (f_mul w) a b) in *. set (H' := v2 w 128 (fun x y => z (f_mul w (z x) (z y))) a b) in *.
      set (Y := v2 w 128 (fun x y => z (f_fma w (z x) (z y) 0)) a b) in *. clearbody X H' Y.
      unfold by_madd in *. destruct d; fl_unf; fam HV; cbn [orb andb negb] in *; repeat split_if; try reflexivity;
      first [ reflexivity | match goal with H : _ -> ?n = ?m |- Ok ?n = Ok ?m => apply f_equal, H; rw_flags; reflexivity end
            | discriminate | fcontra | vimp HV ].
    - rewrite HA. apply f_equal, Hx, FW. discriminate.
    - rewrite HA. apply f_equal, Hx, FW. discriminate.
  Qed.

  Theorem i_fdiv_ok est a b : ftz A d = false -> i_fdiv est A d s a b = Ok (v2 w R (f_div w) a b).
  Proof.
    intros HZ. unfold i_fdiv. destruct s; cbn [fl_sizes avail_flt rbits] in *.
    - apply native_ladder; auto; intros ->; reflexivity.
    - rewrite HA. reflexivity.
    - rewrite HA. reflexivity.
  Qed.
  Theorem i_fsqrt_ok est a : by_rsqrt A d = false -> i_fsqrt est A d s a = Ok (v1 w R (f_sqrt w) a).
  Proof.
    intros HZ. unfold i_fsqrt. destruct s; cbn [fl_sizes avail_flt rbits] in *.
    - assert (FZ : ftz A d = false).
      { revert HZ. unfold by_rsqrt. fl_unf. destruct d; [reflexivity|]. destruct (use_altivec A), (use_neon_flt_sp A), (use_64 A); cbn; intros; first [reflexivity|discriminate]. }
      apply native_ladder; auto; intros E; [rewrite E; reflexivity|]. unfold by_rsqrt in HZ. destruct d; [reflexivity|]. exfalso.
      assert (use_altivec A = true) as EA by (destruct (use_altivec A) eqn:EA; auto; vimp HV). rewrite EA in HZ. discriminate.
    - rewrite HA. reflexivity.
    - rewrite HA. reflexivity.
  Qed.
  Theorem i_fmadd_ok a b c : fma_here A s = true -> i_fmadd A d s a b c = Ok (v3 w R (f_fma w) a b c).
  Proof.
    intros H. unfold i_fmadd, fma_sizes. destruct s; cbn [avail_flt rbits fma_here] in *; try rewrite HA; auto.
    - destruct (use_null A), (use_fma3 A), (use_fma4 A); try discriminate; reflexivity.
    - destruct (use_fma3 A), (use_fma4 A); try discriminate; reflexivity.
  Qed.
  Theorem i_fmsub_ok a b c : fma_here A s = true -> i_fmsub A d s a b c = Ok (v3 w R (f_fms w) a b c).
  Proof.
    intros H. unfold i_fmsub, fma_sizes. destruct s; cbn [avail_flt rbits fma_here] in *; try rewrite HA; auto.
    - destruct (use_null A), (use_fma3 A), (use_fma4 A); try discriminate; reflexivity.
    - destruct (use_fma3 A), (use_fma4 A); try discriminate; reflexivity.
  Qed.
  Lemma no_fma : use_sse3 A = false -> use_fma3 A = false /\ use_fma4 A = false.
  Proof.
    intros H. pose proof HV as V. unfold valid_arch in V. repeat (apply andb_prop in V as [V ?]).
    repeat match goal with X : implb _ _ = true |- _ => rewrite H in X end.
    split; [destruct (use_fma3 A)|destruct (use_fma4 A)]; auto; cbn [implb] in *; discriminate.
  Qed.
  Lemma not_msa : use_msa A = true -> use_null A = false /\ use_fma3 A = false /\ use_fma4 A = false /\ use_neon64 A = false.
  Proof.
    intros H. fl_unf. pose proof no_fma as NF. fam HV; try fcontra. destruct NF as [N1 N2]; [assumption|].
    rewrite ?N1, ?N2. rw_flags. repeat split; auto.
  Qed.
  Lemma not_neon : use_neon64 A = true -> use_null A = false /\ use_fma3 A = false /\ use_fma4 A = false.
  Proof.
    fl_unf. intros H. apply andb_prop in H as [H _]. pose proof no_fma as NF. fam HV; try fcontra. destruct NF as [N1 N2]; [assumption|].
    rewrite ?N1, ?N2. rw_flags. repeat split; auto.
  Qed.
End F.
