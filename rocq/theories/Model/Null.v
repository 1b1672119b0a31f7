(** The no-SIMD backend: simdpp/detail/null/ (math.h, bitwise.h, compare.h, mask.h,
    shuffle.h), as loops over typed C++ elements.  Loops over all elements of a
    vector of type [t] (element type, 128 bits unless R says otherwise). *)
From Verif Require Export Base.Cpp Base.Isa.

Definition ut (w : ew) : cty := (false, wb w).
Definition st (w : ew) : cty := (true, wb w).

(** null/math.h:69-77 abs *)
Definition null_abs (t : cty) (R a : Z) := nloop t R (fun i => c_abs (el t a i)).
(** null/math.h:79-87 saturate<T>: clamp in the type U = int of the argument, then
    convert to T on return. *)
Definition c_saturate (t : cty) (v : cval) : cval :=
  let mn := (c_int, if fst t then - 2 ^ (snd t - 1) else 0) in
  let mx := (c_int, if fst t then 2 ^ (snd t - 1) - 1 else 2 ^ snd t - 1) in
  let v := if c_lt v mn then mn else v in
  let v := if c_gt v mx then mx else v in
  ccast t v.
(** null/math.h:89-97, 109-117 add, sub *)
Definition null_add (t : cty) (R a b : Z) := nloop t R (fun i => c_add (el t a i) (el t b i)).
Definition null_sub (t : cty) (R a b : Z) := nloop t R (fun i => c_sub (el t a i) (el t b i)).
(** null/math.h:99-107, 119-127 add_sat, sub_sat *)
Definition null_add_sat (t : cty) (R a b : Z) :=
  nloop t R (fun i => let* v := c_add (ccast c_i32 (el t a i)) (el t b i) in Ok (c_saturate t v)).
Definition null_sub_sat (t : cty) (R a b : Z) :=
  nloop t R (fun i => let* v := c_sub (ccast c_i32 (el t a i)) (el t b i) in Ok (c_saturate t v)).
(** null/math.h:129-137 neg, 139-147 mul *)
Definition null_neg (t : cty) (R a : Z) := nloop t R (fun i => c_neg (el t a i)).
Definition null_mul (t : cty) (R a b : Z) := nloop t R (fun i => c_mul (el t a i) (el t b i)).
(** null/math.h:187-195 shift_r, 207-215 shift_l: the count is an unsigned *)
Definition null_shift_r (t : cty) (R a n : Z) := nloop t R (fun i => c_shr (el t a i) (c_u32, n)).
Definition null_shift_l (t : cty) (R a n : Z) := nloop t R (fun i => c_shl (el t a i) (c_u32, n)).
(** null/math.h:197-205 shift_r_v, 217-225 shift_l_v: counts of element type ts *)
Definition null_shift_r_v (t ts : cty) (R a n : Z) := nloop t R (fun i => c_shr (el t a i) (el ts n i)).
Definition null_shift_l_v (t ts : cty) (R a n : Z) := nloop t R (fun i => c_shl (el t a i) (el ts n i)).
(** null/math.h:227-235 min, 237-245 max *)
Definition null_min (t : cty) (R a b : Z) :=
  nloop t R (fun i => Ok (if c_le (el t a i) (el t b i) then el t a i else el t b i)).
Definition null_max (t : cty) (R a b : Z) :=
  nloop t R (fun i => Ok (if c_ge (el t a i) (el t b i) then el t a i else el t b i)).

(** null/bitwise.h:29-41, 64-76, 99-111, 123-135: U is the unsigned element type *)
Definition null_bit_and (t : cty) (R a b : Z) := nloop t R (fun i => c_and (el t a i) (el t b i)).
Definition null_bit_andnot (t : cty) (R a b : Z) :=
  nloop t R (fun i => let* nb := c_not (el t b i) in c_and (el t a i) nb).
Definition null_bit_or (t : cty) (R a b : Z) := nloop t R (fun i => c_or (el t a i) (el t b i)).
Definition null_bit_xor (t : cty) (R a b : Z) := nloop t R (fun i => c_xor (el t a i) (el t b i)).
(** bit_not.h:31-35, 116-120 *)
Definition null_bit_not (t : cty) (R a : Z) := nloop t R (fun i => c_not (el t a i)).
(** null/bitwise.h:43-51 bit_and_vm, 78-86 bit_andnot_vm: mask elements are uint8_t *)
Definition null_bit_and_vm (t : cty) (R a m : Z) :=
  nloop t R (fun i => Ok (if c_bool (el c_u8 m i) then el t a i else c_lit 0)).
Definition null_bit_andnot_vm (t : cty) (R a m : Z) :=
  nloop t R (fun i => Ok (if c_bool (el c_u8 m i) then c_lit 0 else el t a i)).
(** null/bitwise.h:53-61, 88-96, 113-121, 137-154: masks of n uint8_t elements *)
Definition null_bit_and_mm (n a b : Z) := nloop c_u8 (8 * n) (fun i => c_and (el c_u8 a i) (el c_u8 b i)).
Definition null_bit_andnot_mm (n a b : Z) :=
  nloop c_u8 (8 * n) (fun i => let* x := c_xor (el c_u8 b i) (c_lit 1) in c_and (el c_u8 a i) x).
Definition null_bit_or_mm (n a b : Z) := nloop c_u8 (8 * n) (fun i => c_or (el c_u8 a i) (el c_u8 b i)).
Definition null_bit_xor_mm (n a b : Z) := nloop c_u8 (8 * n) (fun i => c_xor (el c_u8 a i) (el c_u8 b i)).
Definition null_bit_not_mm (n a : Z) := nloop c_u8 (8 * n) (fun i => c_xor (el c_u8 a i) (c_lit 1)).

(** null/compare.h:23-82: a uint8_t mask element 1 or 0 per element *)
Definition null_cmp (f : cval -> cval -> bool) (t : cty) (R a b : Z) :=
  nloop c_u8 (8 * (R / snd t)) (fun i => Ok (c_lit (if f (el t a i) (el t b i) then 1 else 0))).
Definition null_cmp_eq := null_cmp c_eq.
Definition null_cmp_neq := null_cmp c_neq.
Definition null_cmp_lt := null_cmp c_lt.
Definition null_cmp_le := null_cmp c_le.
Definition null_cmp_gt := null_cmp c_gt.
Definition null_cmp_ge := null_cmp c_ge.

(** null/mask.h:24-38 unmask_mask: all_bits is the all-ones pattern of the element *)
Definition null_unmask (t : cty) (R m : Z) :=
  nloop t R (fun i => Ok (if c_bool (el c_u8 m i) then (t, ones (snd t)) else c_lit 0)).

(** null/shuffle.h:141-154 bit_select *)
Definition null_bit_select (t : cty) (R on off mask : Z) :=
  nloop t R (fun i =>
    let* x := c_and (el t on i) (el t mask i) in
    let* nm := c_not (el t mask i) in
    let* y := c_and (el t off i) nm in
    c_or x y).
(** null/shuffle.h:156-204 blend_mask (the unrolled specialisations for 1, 2 and 4
    elements do the same as the loop).  The second is the mask, mask, mask form. *)
Definition null_blend_mask (t : cty) (R on off m : Z) :=
  nloop t R (fun i => Ok (if c_bool (el c_u8 m i) then el t on i else el t off i)).
Definition null_blend_mask_mm (n on off m : Z) :=
  nloop c_u8 (8 * n) (fun i => Ok (if c_bool (el c_u8 m i) then el c_u8 on i else el c_u8 off i)).
