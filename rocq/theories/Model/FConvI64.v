(** Conversions between floating-point numbers and 64-bit integers: detail/insn/conv_float_to_int64.h,
    detail/insn/conv_any_to_float32.h:125-222; core/to_int64.h:87-104, 170-190, core/to_float32.h:72-90. *)
From Verif Require Export Model.FConv64 Spec.FloatConvI64.

(** ------------------- instructions ------------------- *)
(** VCVTTPD2QQ, VCVTTPS2QQ: 0x8000000000000000 when not representable; VCVTTPD2UQQ, VCVTTPS2UQQ: all ones *)
Definition cvtt64 (sg : bool) (w x : Z) : Z := if fits64 sg w x then wrap 64 (f_int w x) else if sg then 2 ^ 63 else ones 64.
Definition sat64 (sg : bool) : Z -> Z := if sg then dsat_s else dsat_u.

(** ------------------- float64 to int64 ------------------- *)
(** int64_t(x), uint64_t(x) for a double in C *)
Definition c_cvt_d64 (sg : bool) (a : Z) : res Z :=
  if forallb (fits64 sg 64) (elems 64 2 a) then Ok (v1 64 128 (f_int 64) a) else UB.
(** conv_float_to_int64.h:25-77 (uint64), 115-169 (int64).  The undefined upper part of a register cast
    to a wider one does not reach the result. *)
Definition i_to_int64_d (A : arch) (sg : bool) (s : rsz) (a : Z) : res Z :=
  match s with
  | R128 =>
      if use_avx512dq A && use_avx512vl A then Ok (v1 64 128 (cvtt64 sg 64) a)
      else if use_avx512dq A then Ok (lane 128 0 (v1 64 512 (cvtt64 sg 64) a))
      else if use_neon64 A then Ok (v1 64 128 (sat64 sg) a)
      else if use_vsx206 A then Ok (v1 64 128 (sat64 sg) a)
      else if use_msa A then Ok (v1 64 128 (sat64 sg) a)
      else if use_null A || use_neon32 A || use_altivec A then c_cvt_d64 sg a
      else NotImpl
  | R256 =>
      if use_avx A then
        if use_avx512dq A && use_avx512vl A then Ok (v1 64 256 (cvtt64 sg 64) a)
        else if use_avx512dq A then Ok (lane 256 0 (v1 64 512 (cvtt64 sg 64) a))
        else NotImpl
      else NotImpl
  | R512 => if use_avx512f A then if use_avx512dq A then Ok (v1 64 512 (cvtt64 sg 64) a) else NotImpl else NotImpl
  end.
(** conv_float_to_int64.h:79-111, 171-203 with capabilities.h:50-60 (the same condition as for the other
    direction).  The case AVX without AVX2 does not meet it. *)
Definition to_int64_d (A : arch) (sg : bool) (T : Z) (va : vec) : res vec :=
  if has_i64_to_f64 A then vec_impl1 (i_to_int64_d A sg (vregf A T)) va else NotImpl.

(** ------------------- float32 to int64 ------------------- *)
(** conv_float_to_int64.h:207-259 (uint64), 304-356 (int64).  Both convert through int64_t without SIMD. *)
Definition i_to_int64_f (A : arch) (sg : bool) (s : rsz) (a : Z) : res (list Z) :=
  match s with
  | R128 =>
      if use_avx512dq A && use_avx512vl A then Ok [cvt_up 256 (cvtt64 sg 32) 0 a]
      else if use_avx512dq A then Ok [lane 256 0 (cvt_up 512 (cvtt64 sg 32) 0 a)]
      else if use_neon64 A || use_vsx206 A || use_msa A then
        let* d := i_to_float64_f A R128 a in vec_impl1 (i_to_int64_d A sg R128) d
      else if use_null A || use_neon32 A || use_altivec A then
        if forallb (fits64 true 32) (elems 32 4 a) then Ok [cvt_up 128 (fun x => wrap 64 (f_int 32 x)) 0 a; cvt_up 128 (fun x => wrap 64 (f_int 32 x)) 2 a] else UB
      else NotImpl
  | R256 =>
      if use_avx A then
        if use_avx512dq A && use_avx512vl A then Ok [cvt_up 512 (cvtt64 sg 32) 0 a] else NotImpl
      else NotImpl
  | R512 =>
      if use_avx512f A then
        if use_avx512dq A then let '(a1, a2) := i_split1 R512 a in Ok [cvt_up 512 (cvtt64 sg 32) 0 a1; cvt_up 512 (cvtt64 sg 32) 0 a2] else NotImpl
      else NotImpl
  end.
(** conv_float_to_int64.h:261-300, 358-391; the case AVX without AVX2 as above *)
Definition to_int64_f (A : arch) (sg : bool) (T : Z) (va : vec) : res vec :=
  if has_i64_to_f64 A then conv_each (i_to_int64_f A sg (vregf A T)) va else NotImpl.

(** ------------------- int64 to float32 ------------------- *)
(** conv_any_to_float32.h:125-172 (int64), 175-222 (uint64); [T] is the size of the result: float32<4>,
    float32<8> (with AVX) and float32<16> (with AVX512F) have overloads of their own *)
Definition by_float64 (A : arch) (sg : bool) (T : Z) (va : vec) : res vec :=
  let* v := to_float64_64 A sg (2 * T) va in to_float32_d A T v.
Definition to_float32_64 (A : arch) (sg : bool) (T : Z) (va : vec) : res vec :=
  let cv x := f_of_int 32 (int64_of sg x) in
  if negb (has_i64_to_f64 A) then NotImpl
  else if T =? 128 then
    if use_null A then
      match va with
      | [a; b] => Ok [pack 32 128 (fun i => cv (lane 64 (i mod 2) (if i <? 2 then a else b)))]
      | _ => NotImpl
      end
    else if use_avx512vl A then
      match va with [a] => Ok [cvt_down 256 128 cv a] | _ => NotImpl end
    else by_float64 A sg T va
  else if (T =? 256) && use_avx A then
    if use_avx512dq A then match va with [a] => Ok [cvt_down 512 256 cv a] | _ => NotImpl end else NotImpl
  else if (T =? 512) && use_avx512f A then
    if use_avx512dq A then
      match va with [a; b] => Ok [i_combine1 R256 (cvt_down 512 256 cv a) (cvt_down 512 256 cv b)] | _ => NotImpl end
    else by_float64 A sg T va
  else by_float64 A sg T va.
