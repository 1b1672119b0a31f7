(** Conversions between floating-point numbers of [w] bits and 64-bit integers. *)
From Verif Require Export Spec.FloatConv64.

(** the number has an integer part that is an int64_t (sg) or a uint64_t *)
Definition fits64 (sg : bool) (w : Z) (x : Z) : bool :=
  if sg then f_fits w (- 2 ^ 63) (2 ^ 63 - 1) x else f_fits w 0 (2 ^ 64 - 1) x.
(** the integer a 64-bit lane stands for *)
Definition int64_of (sg : bool) (x : Z) : Z := if sg then sgn 64 x else x.
(** the integer part, clamped to the range; 0 for NaN *)
Definition clamped64 (sg : bool) (w : Z) (x r : Z) : Prop :=
  if f_nan w x then r = 0
  else int64_of sg r = if sg then Z.max (- 2 ^ 63) (Z.min (2 ^ 63 - 1) (f_int w x)) else Z.max 0 (Z.min (2 ^ 64 - 1) (f_int w x)).
(** the float32 nearest to an integer *)
Definition nearest_f32 (n : Z -> Z) (x r : Z) : Prop :=
  f_neg 32 r = (n x <? 0) /\ nearest_mag 32 (Z.abs (n x) * 2 ^ fulp 32) 1 (f_mag 32 r).
(** the largest float32 magnitude that is not larger than that of the integer *)
Definition chopped_f32 (n : Z -> Z) (x r : Z) : Prop :=
  f_neg 32 r = (n x <? 0) /\ f_finite 32 r = true /\ f_abs_val 32 r <= Z.abs (n x) * 2 ^ fulp 32 /\
  forall m, 0 <= m < f_inf 32 -> f_abs_val 32 m <= Z.abs (n x) * 2 ^ fulp 32 -> m <= f_mag 32 r.
