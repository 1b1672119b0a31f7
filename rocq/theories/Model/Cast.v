(** Casts between vector types of the same size: simdpp/detail/cast_bitwise.h:319-390,
    simdpp/core/cast.h. *)
From Verif Require Export Model.ConvApi.

(** cast_bitwise.h:319-371: one step of the three kinds of casts; [t] the source, [r] the
    result so far.  native_cast reinterprets a register (66-219); native_cast_split and
    native_cast_combine (221-310) take a register apart or insert the second half. *)
Definition cast_1_to_1 (t : vec) (i : nat) (r : vec) : res vec := let* x := aget t i in aset r i x.
Definition cast_split2 (s : rsz) (t : vec) (i : nat) (r : vec) : res vec :=
  let* x := aget t i in let '(r0, r1) := i_split1 s x in
  let* r := aset r (i * 2) r0 in aset r (i * 2 + 1) r1.
Definition cast_combine2 (s : rsz) (t : vec) (i : nat) (r : vec) : res vec :=
  let* x := aget t (i * 2) in let* y := aget t (i * 2 + 1) in aset r i (i_combine1 s x y).
Fixpoint cast_unroll (n : nat) (i : nat) (step : nat -> vec -> res vec) (r : vec) : res vec :=
  match n with
  | O => Ok r
  | S n => let* r := step i r in cast_unroll n (S i) step r
  end.
(** cast_bitwise.h:374-390: [s] the registers of the source, [n'] vec_length of the result *)
Definition cast_bitwise_vector (s : rsz) (n' : nat) (t : vec) : res vec :=
  let n := length t in
  let r := repeat 0 n' in
  if (n =? n')%nat then cast_unroll n 0 (cast_1_to_1 t) r
  else if (n =? n' * 2)%nat then cast_unroll n' 0 (cast_combine2 s t) r
  else if (n * 2 =? n')%nat then cast_unroll n 0 (cast_split2 s t) r
  else NotImpl. (* does not compile *)

(** A vector type: integer lanes of a width, or floating-point lanes; its registers *)
Inductive vty := TInt (w : ew) | TFlt.
Definition vty_reg (A : arch) (t : vty) (T : Z) : rsz :=
  match t with TInt w => vreg A (wb w) T | TFlt => vregf A T end.
(** core/cast.h:45-78, 80-100 (bit_cast; the cases with masks are not modelled) and the converting constructors of the vector types *)
Definition bit_cast (A : arch) (t t' : vty) (T : Z) (va : vec) : res vec :=
  cast_bitwise_vector (vty_reg A t T) (Z.to_nat (T / rbits (vty_reg A t' T))) va.
