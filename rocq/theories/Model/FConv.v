(** Conversions between float32 and 32-bit integers: detail/insn/conv_float_to_int32.h,
    detail/insn/conv_any_to_float32.h; core/to_int32.h, core/to_float32.h. *)
From Verif Require Export Model.Floats Model.Cast Spec.FloatConv.

(** int32_t(x), uint32_t(x) in C: undefined unless the integer part is representable *)
Definition c_cvt (fits : Z -> bool) (a : Z) : res Z :=
  if forallb fits (elems 32 4 a) then Ok (v1 32 128 (fun x => wrap 32 (f_int 32 x)) a) else UB.
(** CVTTPS2DQ: 0x80000000 when not representable; VCVTTPS2UDQ: 0xffffffff *)
Definition mm_cvtt_s (x : Z) : Z := if fits_s32 x then wrap 32 (f_int 32 x) else 2 ^ 31.
Definition mm_cvtt_u (x : Z) : Z := if fits_u32 x then f_int 32 x else ones 32.
(** vcvtq_s32_f32, vcvtq_u32_f32, vec_cts, vec_ctu, ftrunc_s, ftrunc_u: saturate; 0 for NaN.  (A
    denormal gives 0 whether or not it is flushed.) *)
Definition sat_cvt (lo hi x : Z) : Z :=
  if f_nan 32 x then 0 else wrap 32 (Z.max lo (Z.min hi (f_int 32 x))).
Definition sat_s := sat_cvt (- 2 ^ 31) (2 ^ 31 - 1).
Definition sat_u := sat_cvt 0 (2 ^ 32 - 1).

(** a 256-bit integer result without AVX2 is two registers *)
Definition int_regs (A : arch) (r : Z) : list Z :=
  if use_avx2 A then [r] else let '(r1, r2) := i_split1 R256 r in [r1; r2].
(** conv_float_to_int32.h:28-77 *)
Definition i_to_int32_f (A : arch) (s : rsz) (a : Z) : res (list Z) :=
  match s with
  | R128 =>
      let* r := (if use_null A then c_cvt fits_s32 a
                 else if use_sse2 A then Ok (v1 32 128 mm_cvtt_s a)
                 else if use_neon A && negb (use_neon_flt_sp A) then c_cvt fits_s32 a
                 else if use_neon_flt_sp A then Ok (v1 32 128 sat_s a)
                 else if use_msa A then Ok (v1 32 128 sat_s a)
                 else if use_altivec A then Ok (v1 32 128 sat_s a) else UB) in
      Ok [r]
  | R256 => if use_avx A then Ok (int_regs A (v1 32 256 mm_cvtt_s a)) else NotImpl
  | R512 => if use_avx512f A then Ok [v1 32 512 mm_cvtt_s a] else NotImpl
  end.
(** conv_float_to_int32.h:115-176.  2^31 = 0x4f000000, 2^32 = 0x4f800000. *)
Definition to_uint32_biased (A : arch) (s : rsz) (a : Z) : res (list Z) :=
  let* is_large := f_cmp_ge A false s a (fconst false s 0x4f000000) in
  let* t := f_bit_and_vm A false s (fconst false s 0x4f800000) is_large in
  let* x := i_fsub A false s a t in
  i_to_int32_f A s x.
Definition i_to_uint32_f (A : arch) (s : rsz) (a : Z) : res (list Z) :=
  match s with
  | R128 =>
      if use_null A then let* r := c_cvt fits_u32 a in Ok [r]
      else if use_avx512vl A then Ok [v1 32 128 mm_cvtt_u a]
      else if use_avx512f A then Ok [lane 128 0 (v1 32 512 mm_cvtt_u a)]
      else if use_neon A && negb (use_neon_flt_sp A) then let* r := c_cvt fits_u32 a in Ok [r]
      else if use_neon_flt_sp A then Ok [v1 32 128 sat_u a]
      else if use_msa A then Ok [v1 32 128 sat_u a]
      else if use_altivec A then Ok [v1 32 128 sat_u a]
      else to_uint32_biased A R128 a
  | R256 =>
      if use_avx A then
        if use_avx512vl A then Ok [v1 32 256 mm_cvtt_u a]
        else if use_avx512f A then Ok [lane 256 0 (v1 32 512 mm_cvtt_u a)]
        else to_uint32_biased A R256 a
      else NotImpl
  | R512 => if use_avx512f A then Ok [v1 32 512 mm_cvtt_u a] else NotImpl
  end.
(** the converter templates, 79-110 and 178-209: the registers of the result in order *)
Fixpoint conv_each (f : Z -> res (list Z)) (va : vec) : res vec :=
  match va with
  | [] => Ok []
  | a :: t => let* r := f a in let* q := conv_each f t in Ok (r ++ q)
  end.
Definition to_int32_f (A : arch) (T : Z) (va : vec) : res vec := conv_each (i_to_int32_f A (vregf A T)) va.
Definition to_uint32_f (A : arch) (T : Z) (va : vec) : res vec := conv_each (i_to_uint32_f A (vregf A T)) va.

(** conv_any_to_float32.h:226-274.  The float argument list: the one or two registers that make up
    one float register. *)
Definition i_to_float32_i (A : arch) (s : rsz) (l : list Z) : res Z :=
  let cv x := f_of_int 32 (sgn 32 x) in
  match s, l with
  | R128, [a] =>
      if use_null A then Ok (v1 32 128 cv a)
      else if use_sse2 A then Ok (v1 32 128 cv a)
      else if use_neon A && negb (use_neon_flt_sp A) then Ok (v1 32 128 cv a)
      else if use_neon_flt_sp A then Ok (v1 32 128 cv a)
      else if use_altivec A then Ok (v1 32 128 cv a)
      else if use_msa A then Ok (v1 32 128 cv a) else UB
  | R256, [a] => if use_avx2 A then Ok (v1 32 256 cv a) else NotImpl
  | R256, [a; b] => if use_avx A && negb (use_avx2 A) then Ok (v1 32 256 cv (i_combine1 R128 a b)) else NotImpl
  | R512, [a] => if use_avx512f A then Ok (v1 32 512 cv a) else NotImpl
  | _, _ => NotImpl
  end.
(** conv_any_to_float32.h:313-375.  mask_float32(mask_int32) keeps the bits: on x86 both masks are
    stored alike. *)
Definition to_float32_biased (A : arch) (s : rsz) (a : Z) : res Z :=
  let* is_large := i_cmp_lt A true W32 s a 0 in
  let f_a := v1 32 (rbits s) (fun x => f_of_int 32 (sgn 32 x)) a in
  let* t := f_bit_and_vm A false s (fconst false s 0x4f800000) is_large in
  i_fadd A false s f_a t.
Definition i_to_float32_u (A : arch) (s : rsz) (l : list Z) : res Z :=
  match s, l with
  | R128, [a] =>
      if use_null A then Ok (v1 32 128 (f_of_int 32) a)
      else if use_sse2 A then to_float32_biased A R128 a
      else if use_neon A && negb (use_neon_flt_sp A) then Ok (v1 32 128 (f_of_int 32) a)
      else if use_neon_flt_sp A then Ok (v1 32 128 (f_of_int 32) a)
      else if use_altivec A then Ok (v1 32 128 (f_of_int 32) a)
      else if use_msa A then Ok (v1 32 128 (f_of_int 32) a) else UB
  | R256, [a] => if use_avx512f A then Ok (lane 256 0 (v1 32 512 (f_of_int 32) a))
                 else if use_avx2 A then to_float32_biased A R256 a else NotImpl
  | R256, [a; b] =>
      if use_avx A && negb (use_avx2 A) then
        let* x := to_float32_biased A R128 a in
        let* y := to_float32_biased A R128 b in
        Ok (i_combine1 R128 x y)
      else NotImpl
  | R512, [a] => if use_avx512f A then Ok (v1 32 512 (f_of_int 32) a) else NotImpl
  | _, _ => NotImpl
  end.
(** the converter templates, 276-309 and 377-410 *)
Fixpoint conv_pairs (f : list Z -> res Z) (va : vec) : res vec :=
  match va with
  | a :: b :: t => let* r := f [a; b] in let* q := conv_pairs f t in Ok (r :: q)
  | [] => Ok []
  | _ => UB
  end.
Definition to_float32_by (A : arch) (s : rsz) (f : list Z -> res Z) (va : vec) : res vec :=
  match s with
  | R256 => if use_avx2 A then vec_impl1 (fun a => f [a]) va else conv_pairs f va
  | _ => vec_impl1 (fun a => f [a]) va
  end.
Definition to_float32_i (A : arch) (T : Z) : vec -> res vec := to_float32_by A (vregf A T) (i_to_float32_i A (vregf A T)).
Definition to_float32_u (A : arch) (T : Z) : vec -> res vec := to_float32_by A (vregf A T) (i_to_float32_u A (vregf A T)).

(** conv_any_to_float32.h:412-441: 8- and 16-bit integers by way of 32-bit integers *)
Definition to_float32_small (A : arch) (sg : bool) (w T : Z) (va : vec) : res vec :=
  let* v := to_int_widen A sg w 32 T va in
  if sg then to_float32_i A (T * 32 / w) v else to_float32_u A (T * 32 / w) v.
