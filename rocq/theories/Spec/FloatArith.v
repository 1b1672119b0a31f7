(** IEEE 754 multiplication, division, square root and fused multiply-add on bit patterns, and
    what "correctly rounded" means. *)
From Verif Require Export Spec.Floats.

(** values of finite patterns are multiples of 2^-(fulp w) *)
Definition fulp (w : Z) : Z := if w =? 32 then 149 else 1074.

(** The integer nearest to n / d, ties to even. *)
Definition rdiv (n d : Z) : Z :=
  let q := n / d in
  let r := n mod d in
  if 2 * r <? d then q else if d <? 2 * r then q + 1 else if Z.even q then q else q + 1.
(** The magnitude of the float nearest to n / d, in multiples of the smallest denormal. *)
Definition f_round_q (w n d : Z) : Z :=
  let q := Z.max 0 (Z.log2 (n / d) - fmant w) in
  Z.min (f_inf w) (q * 2 ^ fmant w + rdiv n (d * 2 ^ q)).

Definition f_zero (w x : Z) : bool := f_mag w x =? 0.

Definition f_mul (w x y : Z) : Z :=
  let s := f_sign w (xorb (f_neg w x) (f_neg w y)) in
  if f_unord w x y then f_qnan w
  else if f_isinf w x then (if f_zero w y then f_qnan w else s + f_inf w)
  else if f_isinf w y then (if f_zero w x then f_qnan w else s + f_inf w)
  else s + f_round w (f_abs_val w x * f_abs_val w y) (fulp w).
Definition f_div (w x y : Z) : Z :=
  let s := f_sign w (xorb (f_neg w x) (f_neg w y)) in
  if f_unord w x y then f_qnan w
  else if f_isinf w x then (if f_isinf w y then f_qnan w else s + f_inf w)
  else if f_isinf w y then s
  else if f_zero w y then (if f_zero w x then f_qnan w else s + f_inf w)
  else s + f_round_q w (f_abs_val w x * 2 ^ fulp w) (f_abs_val w y).
(** the root of N = |x| in units of the smallest denormal, rounded: q low bits are dropped *)
Definition f_root (w n : Z) : Z :=
  let q := Z.log2 (Z.sqrt n) - fmant w in
  let s := Z.sqrt (n / 4 ^ q) in
  q * 2 ^ fmant w + (if (2 * s + 1) ^ 2 * 4 ^ q <? 4 * n then s + 1 else s).
Definition f_sqrt (w x : Z) : Z :=
  if f_nan w x then f_qnan w
  else if f_zero w x then x
  else if f_neg w x then f_qnan w
  else if f_isinf w x then x
  else f_root w (f_abs_val w x * 2 ^ fulp w).
(** x * y + z with a single rounding *)
Definition f_fma (w x y z : Z) : Z :=
  let ps := xorb (f_neg w x) (f_neg w y) in
  if f_nan w x || f_nan w y || f_nan w z then f_qnan w
  else if f_isinf w x || f_isinf w y then
    if f_zero w x || f_zero w y then f_qnan w
    else if f_isinf w z && negb (Bool.eqb ps (f_neg w z)) then f_qnan w
    else f_sign w ps + f_inf w
  else if f_isinf w z then z
  else let v := f_val w x * f_val w y + f_val w z * 2 ^ fulp w in
       if v =? 0 then f_sign w (ps && f_neg w z)
       else f_sign w (v <? 0) + f_round w (Z.abs v) (fulp w).
Definition f_fms (w x y z : Z) : Z := if f_nan w z then f_qnan w else f_fma w x y (f_opp w z).

(** [r] is the magnitude nearest to n / d: no other one is nearer, and a tie goes to the even
    pattern.  Infinity takes part with the value the next power of two would have, which is the
    overflow rule of IEEE 754. *)
Definition nearest_mag (w n d r : Z) : Prop :=
  0 <= r <= f_inf w /\
  forall m, 0 <= m <= f_inf w ->
    Z.abs (f_abs_val w r * d - n) <= Z.abs (f_abs_val w m * d - n) /\
    (m <> r -> Z.abs (f_abs_val w r * d - n) = Z.abs (f_abs_val w m * d - n) -> Z.even r = true).
(** [r] is the magnitude nearest to the square root of n: for every other one the midpoint lies on
    the far side of the root. *)
Definition nearest_root (w n r : Z) : Prop :=
  0 <= r < f_inf w /\
  forall m, 0 <= m <= f_inf w ->
    (f_abs_val w r < f_abs_val w m -> 4 * n < (f_abs_val w r + f_abs_val w m) ^ 2) /\
    (f_abs_val w m < f_abs_val w r -> (f_abs_val w r + f_abs_val w m) ^ 2 < 4 * n).
