(** Vector types and the documented type of mixed expressions (types/tag.h, the table in
    the comment).  Mentions no library code. *)
From Coq Require Export ZArith List Bool Lia.
Export ListNotations.
Open Scope Z_scope.

Inductive kind := MaskInt | MaskFloat | Int | UInt | Float.
Inductive width := B8 | B16 | B32 | B64.
Definition bits (w : width) : Z := match w with B8 => 8 | B16 => 16 | B32 => 32 | B64 => 64 end.
(** kind, element width, number of elements *)
Record vtype := VT { knd : kind; wid : width; len : Z }.
Definition bytes (v : vtype) : Z := len v * (bits (wid v) / 8).
(** the types that exist: floating point only with 32 and 64 bits *)
Definition exists_type (v : vtype) : Prop :=
  0 < len v /\ match knd v with Float | MaskFloat => wid v = B32 \/ wid v = B64 | _ => True end.
Definition is_mask (k : kind) : bool := match k with MaskInt | MaskFloat => true | _ => false end.
Definition wmax (a b : width) : width := if bits a <? bits b then b else a.
Definition same_width (a b : width) : bool := bits a =? bits b.

(** The table.  Rows not listed (mask_float with an integer vector) follow the sentence
    above the table: the result is the higher of the two kinds. *)
Definition table (k1 k2 : kind) (samew : bool) : kind :=
  match k1, k2 with
  | Float, _ | _, Float => Float
  | MaskInt, Int | Int, MaskInt => UInt
  | UInt, _ | _, UInt => UInt
  | Int, _ | _, Int => Int
  | MaskInt, MaskInt => if samew then MaskInt else UInt
  | _, _ => if samew then MaskFloat else UInt
  end.
