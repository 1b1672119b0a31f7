(** C15: which calls of the no-SIMD backend have defined behaviour. *)
From Verif Require Export Spec.Masks.

Definition defined {X} (r : res X) : Prop := exists x, r = Ok x.

(** The operations on one, two vectors; [c]: shift count. *)
Inductive call1 := OpNeg | OpAbs | OpBitNot | OpPopcnt | OpShiftL (c : Z) | OpShiftR (sg : bool) (c : Z).
Inductive call2 :=
  | OpAdd | OpSub | OpAddSat (sg : bool) | OpSubSat (sg : bool) | OpMulLo | OpMulHi (sg : bool)
  | OpMin (sg : bool) | OpMax (sg : bool) | OpAvg (sg : bool) | OpAvgTrunc (sg : bool)
  | OpBitAnd | OpBitOr | OpBitXor | OpBitAndNot | OpShiftLV | OpShiftRV (sg : bool)
  | OpCmpEq | OpCmpNeq | OpCmpLt (sg : bool) | OpCmpLe (sg : bool) | OpCmpGt (sg : bool) | OpCmpGe (sg : bool).

(** Element widths for which the library has the operation (core/*.h), and the documented
    restriction on the shift counts. *)
Definition pre1 (w : ew) (o : call1) : Prop :=
  match o with OpShiftL c | OpShiftR _ c => 0 <= c < wb w | _ => True end.
Definition pre2 (w : ew) (o : call2) : Prop :=
  match o with
  | OpAddSat _ | OpSubSat _ => wb w <= 16
  | OpMulLo => w = W16 \/ w = W32
  | OpMulHi _ => w = W16
  | OpAvg _ | OpAvgTrunc _ | OpShiftLV | OpShiftRV _ => wb w <= 32
  | _ => True
  end.

(** Lane values for which the behaviour is defined *)
Definition safe1 (w : ew) (o : call1) (x : Z) : Prop :=
  match o with
  | OpNeg | OpAbs => wb w <= 16 \/ x <> 2 ^ (wb w - 1)
  | _ => True
  end.
Definition safe2 (w : ew) (o : call2) (x y : Z) : Prop :=
  match o with
  | OpMulLo => w = W16 -> x * y <= 2 ^ 31 - 1
  | _ => True
  end.
(** the counts of a shift by a vector are documented to be smaller than the width *)
Definition counts (w : ew) (o : call2) (y : Z) : Prop :=
  match o with OpShiftLV | OpShiftRV _ => y < wb w | _ => True end.
