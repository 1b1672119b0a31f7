(** Conversions to and from float64.  Values of float32 are multiples of 2^-149, values of float64
    multiples of 2^-1074: a float32 of value v (in its unit) has the value v * 2^925 in the other. *)
From Verif Require Export Spec.FloatConv.

Definition unit_gap : Z := 925.
(** float32 to float64: the same number, sign of zero included; NaN stays NaN *)
Definition widened (x r : Z) : Prop :=
  (f_nan 32 x = true -> f_nan 64 r = true) /\
  (f_nan 32 x = false -> f_neg 64 r = f_neg 32 x) /\
  (f_isinf 32 x = true -> f_isinf 64 r = true) /\
  (f_finite 32 x = true -> f_finite 64 r = true /\ f_val 64 r = f_val 32 x * 2 ^ unit_gap).
(** float64 to float32, rounding to nearest *)
Definition narrowed (x r : Z) : Prop :=
  (f_nan 64 x = true -> f_nan 32 r = true) /\
  (f_nan 64 x = false -> f_neg 32 r = f_neg 64 x) /\
  (f_isinf 64 x = true -> f_isinf 32 r = true) /\
  (f_finite 64 x = true -> nearest_mag 32 (f_abs_val 64 x) (2 ^ unit_gap) (f_mag 32 r)).
(** float64 to float32, rounding towards zero: the largest magnitude that is not larger *)
Definition chopped (x r : Z) : Prop :=
  (f_nan 64 x = true -> f_nan 32 r = true) /\
  (f_nan 64 x = false -> f_neg 32 r = f_neg 64 x) /\
  (f_isinf 64 x = true -> f_isinf 32 r = true) /\
  (f_finite 64 x = true -> f_finite 32 r = true /\ f_abs_val 32 r * 2 ^ unit_gap <= f_abs_val 64 x /\
     forall m, 0 <= m < f_inf 32 -> f_abs_val 32 m * 2 ^ unit_gap <= f_abs_val 64 x -> m <= f_mag 32 r).
(** the same pattern by pattern *)
Definition f_widen (x : Z) : Z :=
  if f_nan 32 x then f_qnan 64
  else f_sign 64 (f_neg 32 x) +
       (if f_isinf 32 x then f_inf 64 else f_round 64 (f_abs_val 32 x * 2 ^ unit_gap) 0).
Definition f_narrow (x : Z) : Z :=
  if f_nan 64 x then f_qnan 32
  else f_sign 32 (f_neg 64 x) +
       (if f_isinf 64 x then f_inf 32 else f_round 32 (f_abs_val 64 x) unit_gap).
Definition f_chop (x : Z) : Z :=
  if f_nan 64 x then f_qnan 32
  else f_sign 32 (f_neg 64 x) +
       (if f_isinf 64 x then f_inf 32
        else let r := Z.min (f_inf 32 - 1) (f_round 32 (f_abs_val 64 x) unit_gap) in
             if f_abs_val 64 x <? f_abs_val 32 r * 2 ^ unit_gap then r - 1 else r).

(** a float64 whose integer part is an int32_t or a uint32_t *)
Definition dfits_s32 (x : Z) : bool := f_fits 64 (- 2 ^ 31) (2 ^ 31 - 1) x.
Definition dfits_u32 (x : Z) : bool := f_fits 64 0 (2 ^ 32 - 1) x.
