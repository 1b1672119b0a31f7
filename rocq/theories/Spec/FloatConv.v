(** Conversions between floating-point numbers and integers, and rounding to integral values. *)
From Verif Require Export Spec.FloatArith Spec.Typed.

(** The integer part of a number: the value divided by 1, rounded towards zero. *)
Definition f_int (w x : Z) : Z := Z.quot (f_val w x) (2 ^ fulp w).
(** The number nearest to an integer, ties to even; 0 is +0. *)
Definition f_of_int (w n : Z) : Z :=
  if n =? 0 then 0 else f_sign w (n <? 0) + f_round w (Z.abs n * 2 ^ fulp w) 0.
(** a number whose integer part lies between lo and hi *)
Definition f_fits (w lo hi x : Z) : bool := f_finite w x && (lo <=? f_int w x) && (f_int w x <=? hi).
Definition fits_s32 (x : Z) : bool := f_fits 32 (- 2 ^ 31) (2 ^ 31 - 1) x.
Definition fits_u32 (x : Z) : bool := f_fits 32 0 (2 ^ 32 - 1) x.

(** [op] converts a vector of T bits in all (registers [rs]) to a vector of T' bits (registers
    [rs']): every lane satisfies P (lane, converted lane), provided all lanes satisfy [dom]. *)
Definition conv_rel (w w' T T' : Z) (rs rs' : rsz) (op : vec -> res vec) (dom : Z -> bool) (P : Z -> Z -> Prop) : Prop :=
  forall va, wfv rs va -> Z.of_nat (length va) * rbits rs = T ->
  forallb dom (lanes w rs va) = true ->
  exists vr, op va = Ok vr /\ wfv rs' vr /\ Z.of_nat (length vr) * rbits rs' = T' /\
    Forall2 P (lanes w rs va) (lanes w' rs' vr).
Definition all_lanes (x : Z) : bool := true.
Definition is (f : Z -> Z) (x r : Z) : Prop := r = f x.

(** Rounding to an integral value in one of the directions: NaN stays a NaN, infinities stay. *)
Definition down (n d : Z) : Z := n / d.
Definition up (n d : Z) : Z := - (- n / d).
Definition to_zero (n d : Z) : Z := Z.quot n d.
Definition rounds_to (g : Z -> Z -> Z) (w x r : Z) : Prop :=
  (f_nan w x = true -> f_nan w r = true) /\
  (f_isinf w x = true -> r = x) /\
  (f_finite w x = true -> f_finite w r = true /\ f_val w r = g (f_val w x) (2 ^ fulp w) * 2 ^ fulp w).
(** the same pattern by pattern: the result keeps the sign of the operand *)
Definition f_integral (g : Z -> Z -> Z) (w x : Z) : Z :=
  if f_nan w x then f_qnan w
  else if f_isinf w x then x
  else f_sign w (f_neg w x) + f_round w (Z.abs (g (f_val w x) (2 ^ fulp w)) * 2 ^ fulp w) 0.
(** [op] is applied to every lane: P (lane, result lane), provided all lanes satisfy [dom] *)
Definition relates1 (w : Z) (s : rsz) (op : vec -> res vec) (dom : Z -> bool) (P : Z -> Z -> Prop) : Prop :=
  forall va, wfv s va -> forallb dom (lanes w s va) = true ->
  exists vr, op va = Ok vr /\ wfv s vr /\ Forall2 P (lanes w s va) (lanes w s vr).
