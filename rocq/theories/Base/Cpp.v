(** C++14 semantics of the scalar integer expressions used by the library's
    no-SIMD backend (simdpp/detail/null/).  Nothing here models library code:
    this is the language semantics the model of that code is written in.

    A typed integer value is a pair of its type (signed?, width) and its
    mathematical value, which is always in the range of the type. [int] has 32
    bits, [long]/[int64_t] 64 bits (LP64).  Outcomes the standard leaves
    undefined are [UB].  Implementation-defined points are fixed to what every
    compiler supported by the library does: narrowing to a signed type is
    modular, right shift of a negative value is arithmetic. *)
From Verif Require Export Base.Bits.

Definition cty : Type := (bool * Z)%type.
Definition cval : Type := (cty * Z)%type.
Definition c_u8 : cty := (false, 8).   Definition c_i8 : cty := (true, 8).
Definition c_u16 : cty := (false, 16). Definition c_i16 : cty := (true, 16).
Definition c_u32 : cty := (false, 32). Definition c_i32 : cty := (true, 32).
Definition c_u64 : cty := (false, 64). Definition c_i64 : cty := (true, 64).
Definition c_int := c_i32.

(** value -> type conversion (modular) *)
Definition cconv (t : cty) (x : Z) : Z :=
  if fst t then sgn (snd t) x else wrap (snd t) x.
Definition ccast (t : cty) (v : cval) : cval := (t, cconv t (snd v)).

(** range check of a signed type *)
Definition fits (t : cty) (x : Z) : bool :=
  if fst t then (- 2 ^ (snd t - 1) <=? x) && (x <? 2 ^ (snd t - 1))
  else (0 <=? x) && (x <? 2 ^ snd t).

(** integer promotion [conv.prom]: all types narrower than int become int *)
Definition promote (v : cval) : cval :=
  if snd (fst v) <? 32 then (c_int, snd v) else v.

(** usual arithmetic conversions on promoted types [expr] *)
Definition usual (t u : cty) : cty :=
  if snd t =? snd u then (fst t && fst u, snd t)
  else if snd u <? snd t then t else u.

(** result of computing the mathematical value x in type t *)
Definition cres (t : cty) (x : Z) : res cval :=
  if fst t then (if fits t x then Ok (t, x) else UB)
  else Ok (t, wrap (snd t) x).

Definition carith (f : Z -> Z -> Z) (a b : cval) : res cval :=
  let a := promote a in let b := promote b in
  let t := usual (fst a) (fst b) in
  cres t (f (cconv t (snd a)) (cconv t (snd b))).

Definition c_add := carith Z.add.
Definition c_sub := carith Z.sub.
Definition c_mul := carith Z.mul.
Definition c_and := carith Z.land.
Definition c_or := carith Z.lor.
Definition c_xor := carith Z.lxor.

Definition c_neg (a : cval) : res cval :=
  let a := promote a in cres (fst a) (- snd a).
(** ~a *)
Definition c_not (a : cval) : res cval :=
  let a := promote a in cres (fst a) (Z.lnot (snd a)).

(** a / b [expr.mul]: division by zero and INT_MIN / -1 are undefined *)
Definition c_div (a b : cval) : res cval :=
  let a := promote a in let b := promote b in
  let t := usual (fst a) (fst b) in
  let y := cconv t (snd b) in
  if y =? 0 then UB else cres t (Z.quot (cconv t (snd a)) y).

(** a << b, a >> b [expr.shift] (C++14) *)
Definition c_shl (a b : cval) : res cval :=
  let a := promote a in let b := promote b in
  let '((s, w), x) := a in let c := snd b in
  if (c <? 0) || (w <=? c) then UB
  else if s then
    (if x <? 0 then UB
     else if x * 2 ^ c <? 2 ^ w then Ok ((s, w), sgn w (x * 2 ^ c)) else UB)
  else Ok ((s, w), wrap w (x * 2 ^ c)).
Definition c_shr (a b : cval) : res cval :=
  let a := promote a in let b := promote b in
  let '((s, w), x) := a in let c := snd b in
  if (c <? 0) || (w <=? c) then UB else Ok ((s, w), Z.shiftr x c).

(** comparisons, after the usual arithmetic conversions *)
Definition c_cmp (f : Z -> Z -> bool) (a b : cval) : bool :=
  let a := promote a in let b := promote b in
  let t := usual (fst a) (fst b) in
  f (cconv t (snd a)) (cconv t (snd b)).
Definition c_eq := c_cmp Z.eqb.
Definition c_neq := c_cmp (fun x y => negb (Z.eqb x y)).
Definition c_lt := c_cmp Z.ltb.
Definition c_le := c_cmp Z.leb.
Definition c_gt := c_cmp Z.gtb.
Definition c_ge := c_cmp Z.geb.
(** contextual conversion to bool *)
Definition c_bool (a : cval) : bool := negb (snd a =? 0).

(** std::abs: int overload for everything that promotes to int, long overload
    for 64-bit (cstdlib); the result must be representable *)
Definition c_abs (a : cval) : res cval :=
  let a := promote a in cres (fst a) (Z.abs (snd a)).

(** literal of type int *)
Definition c_lit (x : Z) : cval := (c_int, x).

(** Lane i of register r read as a value of element type t, and the bits stored
    when a value is assigned to an element of type t. *)
Definition el (t : cty) (r i : Z) : cval := (t, cconv t (lane (snd t) i r)).
Definition sto (t : cty) (v : cval) : Z := wrap (snd t) (snd v).

(** Loops over all elements of a null-backend vector of R bits. *)
Definition nloop (t : cty) (R : Z) (f : Z -> res cval) : res Z :=
  mkM (snd t) (nl (snd t) R) (fun i => let* v := f i in Ok (sto t v)).
