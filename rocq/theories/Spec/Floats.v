(** IEEE 754 binary32 / binary64 at the level of bit patterns.  A float is an integer
    0 <= x < 2^w, w = 32 or 64: sign, exponent, fraction. *)
From Verif Require Export Base.Bits.

(** width of the fraction field *)
Definition fmant (w : Z) : Z := if w =? 32 then 23 else 52.
(** the magnitude: the pattern without its sign bit *)
Definition f_mag (w x : Z) : Z := x mod 2 ^ (w - 1).
Definition f_neg (w x : Z) : bool := 2 ^ (w - 1) <=? x.
(** the pattern of +infinity: exponent all ones, fraction 0 *)
Definition f_inf (w : Z) : Z := 2 ^ (w - 1) - 2 ^ fmant w.
Definition f_nan (w x : Z) : bool := f_inf w <? f_mag w x.
Definition f_isinf (w x : Z) : bool := f_mag w x =? f_inf w.
Definition f_finite (w x : Z) : bool := f_mag w x <? f_inf w.
Definition f_denormal (w x : Z) : bool := (0 <? f_mag w x) && (f_mag w x <? 2 ^ fmant w).

(** The value of a finite pattern, as a multiple of the smallest denormal (2^-149 or 2^-1074);
    an infinity gets a value beyond every finite one. *)
Definition f_abs_val (w x : Z) : Z :=
  let e := f_mag w x / 2 ^ fmant w in
  let f := f_mag w x mod 2 ^ fmant w in
  if e =? 0 then f else (2 ^ fmant w + f) * 2 ^ (e - 1).
Definition f_val (w x : Z) : Z := if f_neg w x then - f_abs_val w x else f_abs_val w x.

(** IEEE comparisons: false as soon as an operand is NaN; +0 and -0 are equal. *)
Definition f_unord (w x y : Z) : bool := f_nan w x || f_nan w y.
Definition f_eq (w x y : Z) : bool := negb (f_unord w x y) && (f_val w x =? f_val w y).
Definition f_lt (w x y : Z) : bool := negb (f_unord w x y) && (f_val w x <? f_val w y).
Definition f_le (w x y : Z) : bool := negb (f_unord w x y) && (f_val w x <=? f_val w y).
(** C's x != y: true for NaN *)
Definition f_neq (w x y : Z) : bool := negb (f_eq w x y).

(** Rounding to nearest, ties to even: the integer nearest to n / 2^k. *)
Definition rne (n k : Z) : Z :=
  let q := n / 2 ^ k in
  let r := n mod 2 ^ k in
  if 2 * r <? 2 ^ k then q
  else if 2 ^ k <? 2 * r then q + 1
  else if Z.even q then q else q + 1.
(** The magnitude of the float nearest to n / 2^k (n >= 0, in multiples of the smallest
    denormal): k more than the fraction width of low bits are rounded away; overflow gives
    infinity. *)
Definition f_round (w n k : Z) : Z :=
  let q := Z.max 0 (Z.log2 n - k - fmant w) in
  Z.min (f_inf w) (q * 2 ^ fmant w + rne n (k + q)).
Definition f_sign (w : Z) (s : bool) : Z := if s then 2 ^ (w - 1) else 0.
Definition f_qnan (w : Z) : Z := f_inf w + 2 ^ (fmant w - 1).
(** IEEE addition, round to nearest: NaN operands and opposite infinities give NaN (which NaN
    is not specified here), an exact zero sum is +0 unless both operands are negative. *)
Definition f_add (w x y : Z) : Z :=
  if f_unord w x y then f_qnan w
  else if f_isinf w x then (if f_isinf w y && negb (Bool.eqb (f_neg w x) (f_neg w y)) then f_qnan w else x)
  else if f_isinf w y then y
  else let v := f_val w x + f_val w y in
       if v =? 0 then f_sign w (f_neg w x && f_neg w y)
       else f_sign w (v <? 0) + f_round w (Z.abs v) 0.
Definition f_opp (w x : Z) : Z := Z.lxor x (2 ^ (w - 1)).
Definition f_sub (w x y : Z) : Z := if f_nan w y then f_qnan w else f_add w x (f_opp w y).

(** Denormals treated as (signed) zeros: vector units of ARMv7 NEON and AltiVec. *)
Definition f_flush (w x : Z) : Z := if f_denormal w x then f_sign w (f_neg w x) else x.
