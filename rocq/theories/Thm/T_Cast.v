(** C45: bit_cast keeps every bit. *)
From Verif Require Import Proof.CastP.

(** The bytes (and the 16-, 32- and 64-bit lanes) of a vector, in memory order. *)
Theorem bit_cast_spec : forall A t t' T va, valid_arch A = true -> vsize T ->
  wfv (vty_reg A t T) va -> Z.of_nat (length va) * rbits (vty_reg A t T) = T ->
  exists vr, bit_cast A t t' T va = Ok vr /\
    wfv (vty_reg A t' T) vr /\ Z.of_nat (length vr) * rbits (vty_reg A t' T) = T /\
    forall w, w = 8 \/ w = 16 \/ w = 32 \/ w = 64 -> lanes w (vty_reg A t' T) vr = lanes w (vty_reg A t T) va.
Proof. intros A t t' T va HV HT W L. apply bit_cast_ok; auto. Qed.

(** ... so casting there and back gives the same vector. *)
Lemma app_same_length {X} (l1 : list X) : forall l2 r1 r2, length l1 = length l2 -> l1 ++ r1 = l2 ++ r2 -> l1 = l2 /\ r1 = r2.
Proof.
  induction l1 as [|x l1 IH]; intros [|y l2] r1 r2 HL E; try discriminate HL; cbn in *; auto.
  injection E as -> E. injection HL as HL. destruct (IH l2 r1 r2 HL E) as [-> ->]. auto.
Qed.
Lemma lanes8_inj s : forall va vb, wfv s va -> wfv s vb -> length va = length vb -> lanes 8 s va = lanes 8 s vb -> va = vb.
Proof.
  assert (wok 8 (rbits s) = true) as HW by (destruct s; reflexivity).
  induction va as [|a va IH]; intros [|b vb] Ha Hb Hl E; try discriminate Hl; auto.
  apply wfv_cons in Ha as [Ra Ha]. apply wfv_cons in Hb as [Rb Hb]. rewrite !lanes_cons in E.
  apply app_same_length in E as [E1 E2]; [|rewrite !elems_length; reflexivity].
  injection Hl as Hl. rewrite (IH vb) by auto. f_equal.
  apply (reg_lanes 8 (rbits s)); auto. intros i Hi.
  assert (nth (Z.to_nat i) (elems 8 (nl 8 (rbits s)) a) 0 = nth (Z.to_nat i) (elems 8 (nl 8 (rbits s)) b) 0) as E by (rewrite E1; reflexivity).
  rewrite !nth_elems in E by (unfold nl; lia). rewrite Z2Nat.id in E by lia. exact E.
Qed.
Theorem bit_cast_round_trip : forall A t t' T va, valid_arch A = true -> vsize T ->
  wfv (vty_reg A t T) va -> Z.of_nat (length va) * rbits (vty_reg A t T) = T ->
  exists vr, bit_cast A t t' T va = Ok vr /\ bit_cast A t' t T vr = Ok va.
Proof.
  intros A t t' T va HV HT W L.
  destruct (bit_cast_spec A t t' T va HV HT W L) as (vr & E & W' & L' & EL).
  destruct (bit_cast_spec A t' t T vr HV HT W' L') as (vb & E' & W'' & L'' & EL').
  exists vr. split; auto. rewrite E'. f_equal. apply (lanes8_inj (vty_reg A t T)); auto.
  - assert (0 < rbits (vty_reg A t T)) by (destruct (vty_reg A t T); reflexivity). nia.
  - rewrite EL', EL by auto. reflexivity.
Qed.
(** AVX has 256-bit floating-point registers and 128-bit integer registers. *)
Example bit_cast_ex : bit_cast arch_avx (TInt W8) TFlt 256 [2 ^ 127 + 5; 7] = Ok [2 ^ 127 + 5 + 2 ^ 128 * 7] /\
  bit_cast arch_avx TFlt (TInt W32) 256 [2 ^ 127 + 5 + 2 ^ 128 * 7] = Ok [2 ^ 127 + 5; 7] /\
  wfv (vty_reg arch_avx (TInt W8) 256) [2 ^ 127 + 5; 7].
Proof.
  split; [vm_compute; reflexivity|]. split; [vm_compute; reflexivity|].
  apply wfv_cons; split; [split; vm_compute; [discriminate|reflexivity]|apply wfv_cons; split; [split; vm_compute; [discriminate|reflexivity]|constructor]].
Qed.
