(** Public bitwise API: core/bit_{and,andnot,or,xor,not}.h, core/to_mask.h and the
    mask-to-vector conversions, through SIMDPP_VEC_ARRAY_IMPL on every register
    (insn/bit_and.h:560-600 and the same trailers of the other files). *)
From Verif Require Export Model.Bitwise Base.Vec.
Definition bit_and A w s := vec_impl2 (i_bit_and A w s).
Definition bit_andnot A w s := vec_impl2 (i_bit_andnot A w s).
Definition bit_or A w s := vec_impl2 (i_bit_or A w s).
Definition bit_xor A w s := vec_impl2 (i_bit_xor A w s).
Definition bit_not A w s := vec_impl1 (i_bit_not A w s).
Definition bit_and_vm A w s := vec_impl2 (i_bit_and_vm A w s).
Definition bit_andnot_vm A w s := vec_impl2 (i_bit_andnot_vm A w s).
Definition bit_and_mm A w s := vec_impl2 (i_bit_and_mm A w s).
Definition bit_andnot_mm A w s := vec_impl2 (i_bit_andnot_mm A w s).
Definition bit_or_mm A w s := vec_impl2 (i_bit_or_mm A w s).
Definition bit_xor_mm A w s := vec_impl2 (i_bit_xor_mm A w s).
Definition bit_not_m A w s := vec_impl1 (i_bit_not_m A w s).
Definition to_mask A w s := vec_impl1 (i_to_mask A w s).
Definition unmask_v A w s := vec_impl1 (unmask A w s).
