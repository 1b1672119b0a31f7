From Verif Require Export Model.Cast Proof.SplitP.

Lemma cast_unroll_ok step (out : nat -> vec) k n :
  (forall i pre rest, (i < n)%nat -> length pre = (i * k)%nat -> length rest = ((n - i) * k)%nat ->
     step i (pre ++ rest) = Ok (pre ++ out i ++ skipn k rest)) ->
  (forall i, (i < n)%nat -> length (out i) = k) ->
  cast_unroll n 0 step (repeat 0 (n * k)) = Ok (flat_map out (seq 0 n)).
Proof.
  intros Hs Ho.
  assert (forall m i pre rest, (i + m = n)%nat -> length pre = (i * k)%nat -> length rest = (m * k)%nat ->
    cast_unroll m i step (pre ++ rest) = Ok (pre ++ flat_map out (seq i m))) as HH.
  { induction m as [|m IH]; intros i pre rest Hi Hp Hr.
    - destruct rest; [|discriminate]. reflexivity.
    - cbn [cast_unroll seq flat_map]. rewrite Hs; [cbn [bind]|lia|auto|replace (n - i)%nat with (S m) by lia; auto].
      rewrite app_assoc, IH; [rewrite <- app_assoc; reflexivity|lia|rewrite app_length, Ho by lia; lia|].
      rewrite skipn_length. cbn in Hr. lia. }
  apply (HH n 0%nat [] (repeat 0 (n * k))); auto. apply repeat_length.
Qed.

Lemma cast_11_ok t : cast_unroll (length t) 0 (cast_1_to_1 t) (repeat 0 (length t)) = Ok t.
Proof.
  replace (repeat 0 (length t)) with (repeat 0 (length t * 1)) by (rewrite Nat.mul_1_r; reflexivity).
  rewrite (cast_unroll_ok _ (fun i => [nth i t 0]) 1).
  - f_equal. induction t as [|x t IH]; [reflexivity|]. cbn [length seq flat_map app nth]. f_equal.
    rewrite <- seq_shift, flat_map_concat_map, map_map, <- flat_map_concat_map. exact IH.
  - intros i pre rest Hi Hp Hr. unfold cast_1_to_1. rewrite aget_in by lia. cbn [bind].
    destruct rest as [|y rest]; [cbn in Hr; lia|].
    rewrite aset_in by (rewrite app_length; cbn; lia). rewrite upd_at by lia. reflexivity.
  - reflexivity.
Qed.
Definition halves (s : rsz) (x : Z) : vec := [fst (i_split1 s x); snd (i_split1 s x)].
Lemma cast_split_ok s t : cast_unroll (length t) 0 (cast_split2 s t) (repeat 0 (length t * 2)) = Ok (flat_map (halves s) t).
Proof.
  rewrite (cast_unroll_ok _ (fun i => halves s (nth i t 0)) 2).
  - f_equal. induction t as [|x t IH]; [reflexivity|]. cbn [length seq flat_map nth]. f_equal.
    rewrite <- seq_shift, flat_map_concat_map, map_map, <- flat_map_concat_map. exact IH.
  - intros i pre rest Hi Hp Hr. unfold cast_split2. rewrite aget_in by lia. cbn [bind]. unfold halves.
    destruct (i_split1 s (nth i t 0)) as [r0 r1]. cbn [fst snd].
    destruct rest as [|y [|z rest]]; try (cbn in Hr; lia).
    rewrite aset_in by (rewrite app_length; cbn; lia). cbn [bind]. rewrite upd_at by lia.
    rewrite aset_in by (rewrite app_length; cbn; lia).
    replace (pre ++ r0 :: z :: rest) with ((pre ++ [r0]) ++ z :: rest) by (rewrite <- app_assoc; reflexivity).
    rewrite upd_at by (rewrite app_length; cbn; lia). rewrite <- app_assoc. reflexivity.
  - reflexivity.
Qed.
Fixpoint joined (s : rsz) (t : vec) : vec :=
  match t with x :: y :: t => i_combine1 s x y :: joined s t | _ => [] end.
Lemma cast_combine_ok s : forall n t, length t = (n * 2)%nat ->
  cast_unroll n 0 (cast_combine2 s t) (repeat 0 n) = Ok (joined s t).
Proof.
  intros n t Ht. replace (repeat 0 n) with (repeat 0 (n * 1)) by (rewrite Nat.mul_1_r; reflexivity).
  rewrite (cast_unroll_ok _ (fun i => [i_combine1 s (nth (i * 2) t 0) (nth (i * 2 + 1) t 0)]) 1).
  - f_equal. revert t Ht. induction n as [|n IH]; intros t Ht.
    + destruct t; [reflexivity|discriminate].
    + destruct t as [|x [|y t]]; try discriminate. cbn [seq flat_map app nth joined Nat.mul Nat.add]. f_equal.
      rewrite <- (IH t) by (cbn in Ht; lia).
      rewrite <- seq_shift, flat_map_concat_map, map_map, <- flat_map_concat_map. reflexivity.
  - intros i pre rest Hi Hp Hr. unfold cast_combine2. rewrite !aget_in by lia. cbn [bind].
    destruct rest as [|z rest]; [cbn in Hr; lia|].
    rewrite aset_in by (rewrite app_length; cbn; lia). rewrite upd_at by lia. reflexivity.
  - reflexivity.
Qed.

Definition half_of (s s' : rsz) : Prop := (s = R256 /\ s' = R128) \/ (s = R512 /\ s' = R256).
Lemma split_lanes w s s' x : lw w -> half_of s s' -> wfv s' (halves s x) /\ lanes w s' (halves s x) = elems w (nl w (rbits s)) x.
Proof.
  intros Hw [[-> ->]|[-> ->]]; unfold halves, i_split1; cbn [fst snd]; split;
  try (apply wfv_cons; split; [apply lane_range; discriminate|apply wfv_cons; split; [apply lane_range; discriminate|constructor]]);
  unfold lanes; cbn [flat_map]; rewrite app_nil_r; symmetry.
  - apply (elems_halves w 128). apply lw_ok; auto.
  - apply (elems_halves w 256). apply lw_ok; auto.
Qed.
Lemma join_lanes w s s' x y : lw w -> half_of s' s -> reg (rbits s) x -> reg (rbits s) y ->
  reg (rbits s') (i_combine1 s x y) /\ elems w (nl w (rbits s')) (i_combine1 s x y) = elems w (nl w (rbits s)) x ++ elems w (nl w (rbits s)) y.
Proof.
  intros Hw [[-> ->]|[-> ->]] Hx Hy; unfold i_combine1; (split; [apply pack_reg; reflexivity|]).
  - apply (combine_halves w 128); auto. apply lw_ok; auto.
  - apply (combine_halves w 256); auto. apply lw_ok; auto.
Qed.
Lemma halves_all w s s' t : lw w -> half_of s s' -> wfv s' (flat_map (halves s) t) /\ lanes w s' (flat_map (halves s) t) = lanes w s t.
Proof.
  intros Hw Hh. induction t as [|x t [IW IL]]; [split; [constructor|reflexivity]|].
  destruct (split_lanes w s s' x Hw Hh) as [W L]. cbn [flat_map]. split; [apply wfv_app; auto|].
  rewrite lanes_app, L, IL. reflexivity.
Qed.
Lemma joined_all w s s' : lw w -> half_of s' s -> forall n t, length t = (n * 2)%nat -> wfv s t ->
  wfv s' (joined s t) /\ length (joined s t) = n /\ lanes w s' (joined s t) = lanes w s t.
Proof.
  intros Hw Hh. induction n as [|n IH]; intros t Ht Wt.
  - destruct t; [|discriminate]. split; [constructor|split; reflexivity].
  - destruct t as [|x [|y t]]; try discriminate. apply wfv_cons in Wt as [Wx Wt]. apply wfv_cons in Wt as [Wy Wt].
    destruct (IH t) as (W & L & E); [cbn in Ht; lia|auto|]. destruct (join_lanes w s s' x y Hw Hh Wx Wy) as [Wj Ej].
    cbn [joined]. split; [apply wfv_cons; auto|]. split; [cbn; lia|].
    rewrite !lanes_cons, Ej, E, <- app_assoc. reflexivity.
Qed.
Lemma flat2_len s t : length (flat_map (halves s) t) = (length t * 2)%nat.
Proof. induction t as [|x t IH]; [reflexivity|]. cbn [flat_map]. rewrite app_length, IH. reflexivity. Qed.

(** registers of any two vector types of the same size: equal, or twice as large *)
Lemma vty_ratio A t t' T : valid_arch A = true -> vsize T ->
  let s := vty_reg A t T in let s' := vty_reg A t' T in
  (s = s' \/ half_of s s' \/ half_of s' s) /\ T = rbits s * (T / rbits s) /\ T = rbits s' * (T / rbits s') /\ 0 < T.
Proof.
  intros HV HT. assert (exists q, T = 128 * q /\ (q = 1 \/ q = 2 \/ exists j, q = 4 * j /\ 0 < j)) as (q & -> & Hq).
  { destruct (vsize_div _ HT) as [-> |[-> |[-> |(Hb & j & ->)]]]; [exists 1|exists 2|exists 4|exists (8 * j)]; split; try lia.
    - right. right. exists 1. lia. - right. right. exists (2 * j). lia. }
  cbv zeta.
  assert (forall s, (s = R128 \/ (s = R256 /\ 128 < 128 * q) \/ (s = R512 /\ 256 < 128 * q)) -> 128 * q = rbits s * (128 * q / rbits s)) as Hd.
  { intros s Hs. apply Z.div_exact; [pose proof (rb_pos s); lia|]. apply Z.mod_divide; [pose proof (rb_pos s); lia|].
    destruct Hs as [-> |[[-> ?]|[-> ?]]]; cbn [rbits].
    - exists q. ring.
    - destruct Hq as [-> |[-> |(j & -> & ?)]]; [lia|exists 1; ring|exists (2 * j); ring].
    - destruct Hq as [-> |[-> |(j & -> & ?)]]; [lia|lia|exists j; ring]. }
  assert (forall t, vty_reg A t (128 * q) = R128 \/ (vty_reg A t (128 * q) = R256 /\ 128 < 128 * q) \/ (vty_reg A t (128 * q) = R512 /\ 256 < 128 * q)) as Hr.
  { intros [w|]; cbn [vty_reg]; unfold vreg, vregf; destruct (Z.leb_spec (128 * q) 128); auto;
      [destruct (fast_int A (wb w))|destruct (fast_flt A)]; auto; destruct (Z.leb_spec (128 * q) 256); auto. }
  split; [|split; [|split]]; [|apply Hd, Hr|apply Hd, Hr|destruct Hq as [-> |[-> |(j & -> & ?)]]; lia].
  unfold half_of.
  destruct t as [w|], t' as [w'|]; cbn [vty_reg]; unfold vreg, vregf; destruct (128 * q <=? 128); auto.
  - unfold fast_int. destruct (rconf_ok _ HV); rw_flags; destruct (wb w <=? 16), (wb w' <=? 16), (128 * q <=? 256); auto.
  - unfold fast_int, fast_flt. destruct (valid_imp A HV) as (Ha & Hb & Hc & Hd' & He). destruct (rconf_ok _ HV); rw_flags; destruct (wb w <=? 16), (128 * q <=? 256), (use_avx A) eqn:Ev; auto; vimp HV.
  - unfold fast_int, fast_flt. destruct (rconf_ok _ HV); rw_flags; destruct (wb w' <=? 16), (128 * q <=? 256), (use_avx A) eqn:Ev; auto; vimp HV.
Qed.
Theorem bit_cast_ok A t t' T va : valid_arch A = true -> vsize T ->
  wfv (vty_reg A t T) va -> Z.of_nat (length va) * rbits (vty_reg A t T) = T ->
  exists vr, bit_cast A t t' T va = Ok vr /\ wfv (vty_reg A t' T) vr /\
    Z.of_nat (length vr) * rbits (vty_reg A t' T) = T /\
    forall w, lw w -> lanes w (vty_reg A t' T) vr = lanes w (vty_reg A t T) va.
Proof.
  intros HV HT Wa La. destruct (vty_ratio A t t' T HV HT) as (Hc & E1 & E2 & Hp). cbv zeta in *.
  unfold bit_cast, cast_bitwise_vector. set (s := vty_reg A t T) in *. set (s' := vty_reg A t' T) in *. clearbody s s'.
  pose proof (rb_pos s). pose proof (rb_pos s').
  assert (length va = Z.to_nat (T / rbits s)) as Ln by nia.
  destruct Hc as [<-|[Hh|Hh]].
  - rewrite <- Ln, Nat.eqb_refl. rewrite cast_11_ok. exists va. auto.
  - assert (Z.to_nat (T / rbits s') = length va * 2)%nat as Ln'.
    { rewrite Ln. assert (T / rbits s' = 2 * (T / rbits s)) by (destruct Hh as [[-> ->]|[-> ->]]; cbn [rbits] in *; lia). lia. }
    assert (0 < length va)%nat by nia.
    rewrite Ln'. destruct (Nat.eqb_spec (length va) (length va * 2)); [lia|].
    destruct (Nat.eqb_spec (length va) (length va * 2 * 2)); [lia|]. rewrite Nat.eqb_refl. rewrite cast_split_ok.
    exists (flat_map (halves s) va). split; auto.
    split; [apply (halves_all 8 s s'); auto; unfold lw; auto|].
    split; [rewrite flat2_len; nia|]. intros w Hw. apply halves_all; auto.
  - assert (length va = Z.to_nat (T / rbits s') * 2)%nat as Ln'.
    { rewrite Ln. assert (T / rbits s = 2 * (T / rbits s')) by (destruct Hh as [[-> ->]|[-> ->]]; cbn [rbits] in *; lia). lia. }
    set (n' := Z.to_nat (T / rbits s')) in *. assert (0 < n')%nat by nia.
    destruct (Nat.eqb_spec (length va) n'); [lia|]. rewrite Ln', Nat.eqb_refl.
    destruct (joined_all 8 s s' ltac:(unfold lw; auto) Hh n' va Ln' Wa) as (W & L & _).
    exists (joined s va). split; [apply cast_combine_ok; auto|]. split; auto. split; [rewrite L; unfold n'; nia|].
    intros w Hw. apply (joined_all w s s' Hw Hh n' va Ln' Wa).
Qed.
