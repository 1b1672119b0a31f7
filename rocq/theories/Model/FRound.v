(** floor, ceil, trunc: detail/insn/f_floor.h, f_ceil.h, f_trunc.h; core/f_floor.h, f_ceil.h,
    f_trunc.h. *)
From Verif Require Export Model.FConv Model.Arith Model.Shift.

(** a hardware rounding instruction or std::floor, std::ceil, std::trunc *)
Definition hw_round (g : Z -> Z -> Z) (w R a : Z) : res Z := Ok (v1 w R (f_integral g w) a).
(** the AltiVec instructions treat denormals as zero, with VSX they do not *)
Definition ppc_round (A : arch) (d : bool) (g : Z -> Z -> Z) (a : Z) : res Z :=
  Ok (v1 (fw d) 128 (fun x => f_integral g (fw d) (fz (ftz A d) (fw d) x)) a).
(** vrndnq_f64: to nearest, ties to even *)
Definition to_near (n d : Z) : Z := rdiv n d.

(** to_int32, to_float32 of one 128-bit register *)
Definition to_int32_1 (A : arch) (a : Z) : res Z :=
  let* l := i_to_int32_f A R128 a in match l with [r] => Ok r | _ => UB end.
Definition to_float32_1 (A : arch) (a : Z) : res Z := i_to_float32_i A R128 [a].
(** 0x4afffffe = 8388607.0f, 0x4b000000 = 8388608.0f *)
(** f_floor.h:48-62 *)
Definition floor_f32_sw (A : arch) (a : Z) : res Z :=
  let* ba := i_fabs A false R128 a in
  let* mask_range := f_cmp_le A false R128 ba (fconst false R128 0x4afffffe) in
  let* mask_nonzero := f_cmp_gt A false R128 ba (fconst false R128 0) in
  let* mask := f_bit_and_mm A false R128 mask_range mask_nonzero in
  let* s := i_shift_r A false W32 R128 a 31 in
  let* at_ := i_sub A W32 R128 a s in
  let* ia := to_int32_1 A at_ in
  let* ia := i_sub A W32 R128 ia s in
  let* fa := to_float32_1 A ia in
  f_blend_m A false R128 fa a mask.
(** f_ceil.h:50-65; bit_xor(s, 1) on integers *)
Definition ceil_f32_sw (A : arch) (a : Z) : res Z :=
  let* ba := i_fabs A false R128 a in
  let* mask_range := f_cmp_le A false R128 ba (fconst false R128 0x4afffffe) in
  let* mask_nonzero := f_cmp_gt A false R128 ba (fconst false R128 0) in
  let* mask := f_bit_and_mm A false R128 mask_range mask_nonzero in
  let* s := i_shift_r A false W32 R128 a 31 in
  let* s := i_bit_xor A W32 R128 s (splat 32 128 1) in
  let* at_ := i_sub A W32 R128 a s in
  let* ia := to_int32_1 A at_ in
  let* ia := i_add A W32 R128 ia s in
  let* fa := to_float32_1 A ia in
  f_blend_m A false R128 fa a mask.
(** f_trunc.h:49-62 *)
Definition trunc_f32_sw (A : arch) (a : Z) : res Z :=
  let* af := i_fabs A false R128 a in
  let* mask_range := f_cmp_lt A false R128 af (fconst false R128 0x4b000000) in
  let* mask_nonzero := f_cmp_gt A false R128 af (fconst false R128 0) in
  let* mask := f_bit_and_mm A false R128 mask_range mask_nonzero in
  let* ia := to_int32_1 A a in
  let* fa := to_float32_1 A ia in
  f_blend_m A false R128 fa a mask.

(** float64 by bit masks.  0x432ffffffffffffe = 4503599627370495.0, 0x3ff0000000000000 = 1.0,
    0xbff0000000000000 = -1.0 *)
Definition fc64 (v : Z) : Z := fconst true R128 v.
Definition clearbits64 (A : arch) (af keep : Z) : res Z :=
  let* c := f_bit_and A true R128 af (fc64 0x7ff0000000000000) in
  let* c := i_fadd A true R128 c (fc64 0x3ff0000000000000) in
  let* c := i_sub A W64 R128 c (splat 64 128 1) in
  f_bit_andnot A true R128 c (fc64 keep).
(** f_trunc.h:92-111 *)
Definition trunc_f64_sw (A : arch) (a : Z) : res Z :=
  let* af := i_fabs A true R128 a in
  let* mask_range := f_cmp_le A true R128 af (fc64 0x432ffffffffffffe) in
  let* mz := f_cmp_lt A true R128 af (fc64 0x3ff0000000000000) in
  let* mask_zero := unmask_f A true R128 mz in
  let* clearbits := clearbits64 A af 0x7ff0000000000000 in
  let* a2 := f_bit_andnot A true R128 a clearbits in
  let* a2 := f_bit_andnot A true R128 a2 mask_zero in
  f_blend_m A true R128 a2 a mask_range.
(** f_floor.h:92-125; the truncated value computed at 109 is overwritten at 122 *)
Definition floor_f64_sw (A : arch) (a : Z) : res Z :=
  let* af := i_fabs A true R128 a in
  let* mask_range := f_cmp_le A true R128 af (fc64 0x432ffffffffffffe) in
  let* mask_1to1 := f_cmp_lt A true R128 af (fc64 0x3ff0000000000000) in
  let* clearbits := clearbits64 A af 0xfff0000000000000 in
  let* mask_neg := f_cmp_lt A true R128 a (fc64 0) in
  let* t := f_bit_and A true R128 a clearbits in
  let* mask_sub1 := f_cmp_gt A true R128 t (fc64 0) in
  let* mask_sub1 := f_bit_and_mm A true R128 mask_sub1 mask_neg in
  let* m := f_bit_and_mm A true R128 mask_1to1 mask_neg in
  let* mask_sub1 := f_bit_or_mm A true R128 mask_sub1 m in
  let* sub1 := f_bit_and_vm A true R128 (fc64 0xbff0000000000000) mask_sub1 in
  let* a2 := f_bit_andnot_vm A true R128 a mask_1to1 in
  let* a2 := i_fsub A true R128 a2 sub1 in
  f_blend_m A true R128 a2 a mask_range.
(** f_ceil.h:95-130 *)
Definition ceil_f64_sw (A : arch) (a : Z) : res Z :=
  let* af := i_fabs A true R128 a in
  let* mask_range := f_cmp_le A true R128 af (fc64 0x432ffffffffffffe) in
  let* mask_1to1 := f_cmp_lt A true R128 af (fc64 0x3ff0000000000000) in
  let* clearbits := clearbits64 A af 0xfff0000000000000 in
  let* mask_pos := f_cmp_gt A true R128 a (fc64 0) in
  let* t := f_bit_and A true R128 a clearbits in
  let* mask_add1 := f_cmp_gt A true R128 t (fc64 0) in
  let* mask_add1 := f_bit_and_mm A true R128 mask_add1 mask_pos in
  let* m := f_bit_and_mm A true R128 mask_1to1 mask_pos in
  let* mask_add1 := f_bit_or_mm A true R128 mask_add1 m in
  let* add1 := f_bit_and_vm A true R128 (fc64 0x3ff0000000000000) mask_add1 in
  let* a2 := f_bit_andnot_vm A true R128 a mask_1to1 in
  let* a2 := i_fadd A true R128 a2 add1 in
  f_blend_m A true R128 a2 a mask_range.

(** f_floor.h: f32 35-82, f64 87-153; f_ceil.h: 37-85, 90-156; f_trunc.h: 36-82, 87-154 (whose
    second MSA branch, 116-130, is never reached).  [g64]: what NEON64 does on float64. *)
Definition fround (g g64 : Z -> Z -> Z) (sw32 sw64 : arch -> Z -> res Z) (A : arch) (d : bool) (s : rsz) (a : Z) : res Z :=
  let w := fw d in
  fl_sizes A s
    (if d then
       if use_sse41 A then hw_round g w 128 a
       else if use_sse2 A || use_msa A then sw64 A a
       else if use_neon64 A then hw_round g64 w 128 a
       else if use_vsx206 A then ppc_round A d g a
       else if use_null A || use_neon32 A || use_altivec A then hw_round g w 128 a else UB
     else
       if use_null A || use_neon_no_flt_sp A then hw_round g w 128 a
       else if use_sse41 A then hw_round g w 128 a
       else if use_neon64 A then hw_round g w 128 a
       else if use_sse2 A || use_neon_flt_sp A || use_msa A then sw32 A a
       else if use_altivec A then ppc_round A d g a else UB)
    (hw_round g w 256 a) (hw_round g w 512 a).
Definition i_floor := fround down to_near floor_f32_sw floor_f64_sw.
Definition i_ceil := fround up up ceil_f32_sw ceil_f64_sw.
Definition i_trunc := fround to_zero to_zero trunc_f32_sw trunc_f64_sw.
(** core/f_floor.h:28-50, core/f_ceil.h, core/f_trunc.h *)
Definition floor_f A d s := vec_impl1 (i_floor A d s).
Definition ceil_f A d s := vec_impl1 (i_ceil A d s).
Definition trunc_f A d s := vec_impl1 (i_trunc A d s).
