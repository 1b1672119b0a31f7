(** div_p<P>: core/i_div_p.h, detail/null/math.h:169-184. *)
From Verif Require Export Model.Mask Model.Bitwise Model.Arith Model.Shift Model.Cmp.

(** null/math.h:169-184: mask = ~(~0ull << P), then r = (a & mask) / (b & mask); r &= mask *)
Definition null_div_p (t : cty) (P R a b : Z) : res Z :=
  let* m := c_not (c_u64, 0) in
  let* m := c_shl m (c_u32, P) in
  let* m := c_not m in
  nloop t R (fun i =>
    let* x := c_and (el t a i) m in
    let* y := c_and (el t b i) m in
    let* q := c_div x y in
    c_and (ccast t q) m).

(** core/i_div_p.h:54-73 (bytes: the shifts are done on the vector cast to uint16x8), 104-122:
    one turn of the loop, with [bit] = i - 1 *)
Definition div_p_step (A : arch) (w : ew) (num den bit : Z) (st : Z * Z * Z) : res (Z * Z * Z) :=
  let '(r, q, bm) := st in
  let* r := i_shift_l_t A W16 R128 1 r in
  let* nb := i_bit_and A w R128 num bm in
  let* nb := i_shift_r A false W16 R128 nb bit in
  let* r := i_bit_or A w R128 r nb in
  let* m := i_cmp_lt A false w R128 r den in
  let* cmp := unmask A w R128 m in
  let* csub := i_bit_andnot A w R128 den cmp in
  let* cbit := i_bit_andnot A w R128 bm cmp in
  let* r := i_sub A w R128 r csub in
  let* q := i_bit_or A w R128 q cbit in
  let* bm := i_shift_r_t A false W16 R128 1 bm in
  Ok (r, q, bm).
Fixpoint div_p_loop (A : arch) (w : ew) (num den : Z) (i : nat) (st : Z * Z * Z) : res Z :=
  match i with
  | O => let '(r, q, bm) := st in Ok q
  | S bit => let* st := div_p_step A w num den (Z.of_nat bit) st in div_p_loop A w num den bit st
  end.
(** core/i_div_p.h:43-74, 92-124.  P = 0 and P beyond the width do not compile. *)
Definition div_p (A : arch) (w : ew) (P : nat) (num den : Z) : res Z :=
  match w with
  | W8 | W16 =>
      if (Z.of_nat P <? 1) || (wb w <? Z.of_nat P) then NotImpl
      else if use_null A then null_div_p (ut w) (Z.of_nat P) 128 num den
      else
        let* zero := konst A w R128 0 in
        let* bm := konst A w R128 (2 ^ (Z.of_nat P - 1)) in
        div_p_loop A w num den P (zero, zero, bm)
  | _ => NotImpl
  end.
