(** Integer conversions and split / combine as called by users: simdpp/core/to_int{16,32,64}.h,
    simdpp/core/{split,combine}.h. *)
From Verif Require Export Model.Convert.

(** core/to_int16.h:40-59, 106-124 (to_uint16), core/to_int32.h:50-79, 125-154 (to_uint32),
    core/to_int64.h:43-82, 121-160 (to_uint64): the signedness [sg] of the argument type
    selects the overload; the result type's signedness only casts.  A conversion to the
    same width is a cast.  Narrowing overloads: Model/Narrow.v. *)
Definition to_int_widen (A : arch) (sg : bool) (w w' T : Z) (va : vec) : res vec :=
  if w' =? w then Ok va
  else if (w =? 8) && (w' =? 16) then ext_8_16 A sg T va
  else if (w =? 16) && (w' =? 32) then ext_16_32 A sg T va
  else if (w =? 32) && (w' =? 64) then ext_32_64 A sg T va
  else if (w =? 8) && (w' =? 32) then ext_8_32 A sg T va
  else if (w =? 16) && (w' =? 64) then ext_16_64 A sg T va
  else if (w =? 8) && (w' =? 64) then ext_8_64 A sg T va
  else NotImpl.

(** core/split.h:50-117, core/combine.h:30-101: signed types are cast to unsigned ones.
    [T]: bits of the argument(s). *)
Definition split_int (A : arch) (w T : Z) (va : vec) : res (vec * vec) := i_split (vreg A w T) va.
Definition split_flt (A : arch) (T : Z) (va : vec) : res (vec * vec) := i_split (vregf A T) va.
Definition combine_int (A : arch) (w T : Z) (va vb : vec) : res vec :=
  i_combine (vreg A w T) (vreg A w (2 * T)) va vb.
Definition combine_flt (A : arch) (T : Z) (va vb : vec) : res vec :=
  i_combine (vregf A T) (vregf A (2 * T)) va vb.
