(** Conversions of floating-point numbers to 8- and 16-bit integers: detail/insn/conv_float_to_int16.h,
    detail/insn/conv_float_to_int8.h; core/to_int16.h:80-89, 146-155, core/to_int8.h:76-85, 140-149. *)
From Verif Require Export Model.FConv Model.FConv64 Model.Narrow.

(** conv_float_to_int16.h:27-31, 39-43, conv_float_to_int8.h:27-31, 39-43: float32 to (u)int[w'], by way of
    int32, which is then taken as uint32 and cut; [T] is the size of the vector of 32-bit integers, [junk] the
    uninitialised result of the second step.  The signed and the unsigned conversion are the same. *)
Definition to_small_f (A : arch) (junk : vec) (w' T : Z) (va : vec) : res vec :=
  let* v := to_int32_f A T va in to_int_narrow A junk 32 w' T v.
(** conv_float_to_int16.h:33-37, 45-49, conv_float_to_int8.h:33-37, 45-49: float64 *)
Definition to_small_d (A : arch) (junk : vec) (w' T : Z) (va : vec) : res vec :=
  let* v := to_int32_d A T va in to_int_narrow A junk 32 w' T v.
