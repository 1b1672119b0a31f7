(** Conversions to and from float64: detail/insn/conv_any_to_float64.h, the float64 part of
    detail/insn/conv_any_to_float32.h and of detail/insn/conv_float_to_int32.h; core/to_float64.h,
    core/to_float32.h, core/to_int32.h. *)
From Verif Require Export Model.FConv Spec.FloatConv64 Model.Unzip Model.Convert.

(** ------------------- instructions ------------------- *)
(** R' bits of doubles, each converted from the 32-bit element at position k + i of [a] *)
Definition cvt_up (R' : Z) (cv : Z -> Z) (k : Z) (a : Z) : Z := pack 64 R' (fun i => cv (lane 32 (k + i) a)).
(** CVTPS2PD, VCVTPS2PD, FCVTL, fexupr: the low elements; FCVTL2, fexupl: the high ones *)
Definition cvtps_pd (R' : Z) := cvt_up R' f_widen 0.
(** CVTDQ2PD, VCVTDQ2PD; VCVTUDQ2PD *)
Definition cvtepi32_pd (R' : Z) := cvt_up R' (fun x => f_of_int 64 (sgn 32 x)) 0.
Definition cvtepu32_pd (R' : Z) := cvt_up R' (f_of_int 64) 0.
(** xvcvspdp: on a little-endian machine the odd words of the register are converted *)
Definition xvcvspdp (a : Z) : Z := pack 64 128 (fun i => f_widen (lane 32 (2 * i + 1) a)).
(** vcvtq_f64_s64, xvcvsxddp (vec_ctf), ffint_s_d, VCVTQQ2PD, and the unsigned ones *)
Definition cvt64_pd (sg : bool) (R : Z) (a : Z) : Z := v1 64 R (fun x => f_of_int 64 (if sg then sgn 64 x else x)) a.
(** R' bits of 32-bit elements, each converted from the double at the same position; the rest 0 *)
Definition cvt_down (R R' : Z) (cv : Z -> Z) (a : Z) : Z := pack 32 R' (fun i => if i <? R / 64 then cv (lane 64 i a) else 0).
Definition cvtpd_ps (R R' : Z) := cvt_down R R' f_narrow.
(** CVTTPD2DQ: 0x80000000 when not representable; VCVTTPD2UDQ: 0xffffffff *)
Definition dcvtt_s (x : Z) : Z := if dfits_s32 x then wrap 32 (f_int 64 x) else 2 ^ 31.
Definition dcvtt_u (x : Z) : Z := if dfits_u32 x then f_int 64 x else ones 32.
(** vcvtq_s64_f64, xvcvdpsxds (vec_cts), ftrunc_s_d and the unsigned ones: saturate; 0 for NaN *)
Definition dsat (lo hi x : Z) : Z := if f_nan 64 x then 0 else wrap 64 (Z.max lo (Z.min hi (f_int 64 x))).
Definition dsat_s := dsat (- 2 ^ 63) (2 ^ 63 - 1).
Definition dsat_u := dsat 0 (2 ^ 64 - 1).
(** vqmovn_s64, vqmovn_u64 *)
Definition qmovn_s (x : Z) : Z := wrap 32 (Z.max (- 2 ^ 31) (Z.min (2 ^ 31 - 1) (sgn 64 x))).
Definition qmovn_u (x : Z) : Z := Z.min (2 ^ 32 - 1) x.
(** int32_t(x), uint32_t(x) for a double in C *)
Definition c_cvt64 (fits : Z -> bool) (a b : Z) : res Z :=
  if forallb fits (elems 64 2 a ++ elems 64 2 b)
  then Ok (pack 32 128 (fun i => wrap 32 (f_int 64 (lane 64 (i mod 2) (if i <? 2 then a else b))))) else UB.

(** ------------------- to_float64 ------------------- *)
(** conv_any_to_float64.h:31-105.  C's double(x) is exact: also where the vector unit flushes denormals. *)
Definition i_to_float64_f (A : arch) (s : rsz) (a : Z) : res (list Z) :=
  match s with
  | R128 =>
      if use_avx A then Ok [cvtps_pd 256 a]
      else if use_sse2 A then
        let* m := i_move_l A F32 R128 2 a in Ok [cvtps_pd 128 a; cvtps_pd 128 m]
      else if use_neon64 A then Ok [cvtps_pd 128 a; cvt_up 128 f_widen 2 a]
      else if use_vsx206 A then
        let* lo := i_zip A F32 R128 false 0 a in
        let* hi := i_zip A F32 R128 true 0 a in
        Ok [xvcvspdp lo; xvcvspdp hi]
      else if use_msa A then Ok [cvtps_pd 128 a; cvt_up 128 f_widen 2 a]
      else if use_null A || use_neon32 A || use_altivec A then Ok [cvtps_pd 128 a; cvt_up 128 f_widen 2 a] else UB
  | R256 =>
      if use_avx A then
        if use_avx512f A then Ok [cvtps_pd 512 a]
        else let '(a1, a2) := i_split1 R256 a in Ok [cvtps_pd 256 a1; cvtps_pd 256 a2]
      else NotImpl
  | R512 =>
      if use_avx512f A then let '(a1, a2) := i_split1 R512 a in Ok [cvtps_pd 512 a1; cvtps_pd 512 a2] else NotImpl
  end.
(** conv_any_to_float64.h:137-208 *)
Definition i_to_float64_i (A : arch) (s : rsz) (a : Z) : res (list Z) :=
  let cv x := f_of_int 64 (sgn 32 x) in
  match s with
  | R128 =>
      if use_avx A then Ok [cvtepi32_pd 256 a]
      else if use_sse2 A then
        let* m := i_move4_l A R128 2 a in Ok [cvtepi32_pd 128 a; cvtepi32_pd 128 m]
      else if use_neon64 A then Ok [cvt64_pd true 128 (vmovl_s 32 (vget_low a)); cvt64_pd true 128 (vmovl_s 32 (vget_high a))]
      else if use_vsx206 A then
        if use_vsx207 A then
          let* a64 := i_ext_32_64 A true R128 a in Ok (map (cvt64_pd true 128) a64)
        else
          let* sign := i_shift_r_t A true W32 R128 31 a in
          Ok [cvt64_pd true 128 (vec_mergeh 32 a sign); cvt64_pd true 128 (vec_mergel 32 a sign)]
      else if use_msa A then
        let* a64 := i_ext_32_64 A true R128 a in Ok (map (cvt64_pd true 128) a64)
      else if use_null A || use_neon A || use_altivec A then Ok [cvt_up 128 cv 0 a; cvt_up 128 cv 2 a] else UB
  | R256 =>
      if use_avx2 A then
        if use_avx512f A then Ok [cvtepi32_pd 512 a]
        else let '(a1, a2) := i_split1 R256 a in Ok [cvtepi32_pd 256 a1; cvtepi32_pd 256 a2]
      else NotImpl
  | R512 =>
      if use_avx512f A then let '(a1, a2) := i_split1 R512 a in Ok [cvtepi32_pd 512 a1; cvtepi32_pd 512 a2] else NotImpl
  end.
(** conv_any_to_float64.h:259-261, 304-306: "if result is negative, we converted integer larger than
    0x7fffffff".  2^32 = 0x41f0000000000000. *)
Definition u32_correct (A : arch) (s : rsz) (f : Z) : res Z :=
  let* is_large := f_cmp_lt A true s f (fconst true s 0) in
  let* t := i_fadd A true s f (fconst true s 0x41f0000000000000) in
  f_blend_m A true s t f is_large.
(** conv_any_to_float64.h:247-325 *)
Definition i_to_float64_u (A : arch) (s : rsz) (a : Z) : res (list Z) :=
  match s with
  | R128 =>
      if use_avx512vl A then Ok [cvtepu32_pd 256 a]
      else if use_sse2 A then
        if use_avx A then let* r := u32_correct A R256 (cvtepi32_pd 256 a) in Ok [r]
        else
          let* m := i_move4_l A R128 2 a in
          let* r1 := u32_correct A R128 (cvtepi32_pd 128 a) in
          let* r2 := u32_correct A R128 (cvtepi32_pd 128 m) in Ok [r1; r2]
      else if use_neon64 A then Ok [cvt64_pd false 128 (vmovl_u 32 (vget_low a)); cvt64_pd false 128 (vmovl_u 32 (vget_high a))]
      else if use_vsx206 A then
        if use_vsx207 A then
          let* a64 := i_ext_32_64 A false R128 a in Ok (map (cvt64_pd false 128) a64)
        else Ok [cvt64_pd false 128 (vec_mergeh 32 a 0); cvt64_pd false 128 (vec_mergel 32 a 0)]
      else if use_msa A then
        let* a64 := i_ext_32_64 A false R128 a in Ok (map (cvt64_pd false 128) a64)
      else if use_null A || use_neon A || use_altivec A then Ok [cvt_up 128 (f_of_int 64) 0 a; cvt_up 128 (f_of_int 64) 2 a] else UB
  | R256 =>
      if use_avx2 A then
        if use_avx512f A then Ok [cvtepu32_pd 512 a]
        else let '(a1, a2) := i_split1 R256 a in
             let* r1 := u32_correct A R256 (cvtepi32_pd 256 a1) in
             let* r2 := u32_correct A R256 (cvtepi32_pd 256 a2) in Ok [r1; r2]
      else NotImpl
  | R512 =>
      if use_avx512f A then let '(a1, a2) := i_split1 R512 a in Ok [cvtepu32_pd 512 a1; cvtepu32_pd 512 a2] else NotImpl
  end.
(** the converter templates, conv_any_to_float64.h:107-131, 210-242, 327-359: the registers of the
    result in order *)
Definition to_float64_f (A : arch) (T : Z) (va : vec) : res vec := conv_each (i_to_float64_f A (vregf A T)) va.
Definition to_float64_i (A : arch) (T : Z) (va : vec) : res vec := conv_each (i_to_float64_i A (vreg A 32 T)) va.
Definition to_float64_u (A : arch) (T : Z) (va : vec) : res vec := conv_each (i_to_float64_u A (vreg A 32 T)) va.
(** conv_any_to_float64.h:361-389: by way of 32-bit integers *)
Definition to_float64_small (A : arch) (sg : bool) (w T : Z) (va : vec) : res vec :=
  let* v := to_int_widen A sg w 32 T va in
  if sg then to_float64_i A (T * 32 / w) v else to_float64_u A (T * 32 / w) v.

(** conv_any_to_float64.h:393-437, 474-518 and the converters after them; core/to_float64.h:62-81 with
    capabilities.h:50-66.  (Without AVX2 an AVX register of doubles takes two registers of integers, but
    then nothing is implemented.) *)
Definition has_i64_to_f64 (A : arch) : bool :=
  use_null A || use_avx512dq A || use_neon64 A || use_vsx207 A || use_msa A.
Definition i_to_float64_64 (A : arch) (sg : bool) (s : rsz) (a : Z) : res Z :=
  match s with
  | R128 =>
      if use_avx512vl A then Ok (cvt64_pd sg 128 a)
      else if use_neon64 A then Ok (cvt64_pd sg 128 a)
      else if use_vsx207 A then Ok (cvt64_pd sg 128 a)
      else if use_vsx206 A then Ok (cvt64_pd sg 128 a)
      else if use_msa A then Ok (cvt64_pd sg 128 a)
      else if use_null A || use_neon A || use_altivec A then Ok (cvt64_pd sg 128 a)
      else NotImpl
  | R256 => if use_avx A && use_avx512vl A then Ok (cvt64_pd sg 256 a) else NotImpl
  | R512 => if use_avx512f A then Ok (cvt64_pd sg 512 a) else NotImpl
  end.
Definition to_float64_64 (A : arch) (sg : bool) (T : Z) (va : vec) : res vec :=
  if has_i64_to_f64 A then vec_impl1 (i_to_float64_64 A sg (vreg A 64 T)) va else NotImpl.

(** ------------------- from float64 ------------------- *)
(** FEXDO.W wd, ws, wt (MIPS SIMD architecture manual): left_half(wd)[i] <- down_convert(ws[i]),
    right_half(wd)[i] <- down_convert(wt[i]); the right half are the low elements, as in FEXUPR *)
Definition msa_fexdo (ws wt : Z) : Z := pack 32 128 (fun i => f_narrow (lane 64 (i mod 2) (if i <? 2 then wt else ws))).
(** conv_any_to_float32.h:34-93.  The argument list: the one or two registers that hold twice as many
    bits as the result register [s].  xvcvdpsp writes the result in both words of a doubleword. *)
Definition i_to_float32_d (A : arch) (s : rsz) (l : list Z) : res Z :=
  match s, l with
  | R128, [a] => if use_avx A then Ok (cvtpd_ps 256 128 a) else NotImpl
  | R128, [a; b] =>
      if use_sse2 A then Ok (Z.lor (lane 64 0 (cvtpd_ps 128 128 a)) (Z.shiftl (lane 64 0 (cvtpd_ps 128 128 b)) 64))
      else if use_neon64 A then Ok (Z.lor (cvtpd_ps 128 64 a) (Z.shiftl (cvtpd_ps 128 64 b) 64))
      else if use_vsx206 A then
        let xvcvdpsp x := pack 32 128 (fun i => f_narrow (lane 64 (i / 2) x)) in
        Ok (pack 32 128 (fun i => lane 32 (2 * (i mod 2)) (xvcvdpsp (if i <? 2 then a else b))))
      else if use_msa A then Ok (msa_fexdo a b)
      else if use_null A || use_neon A || use_altivec A then
        Ok (pack 32 128 (fun i => f_narrow (lane 64 (i mod 2) (if i <? 2 then a else b))))
      else UB
  | R256, [a] => if use_avx512f A then Ok (cvt_down 512 256 f_chop a) else NotImpl
  | R256, [a; b] =>
      if use_avx A && negb (use_avx512f A) then Ok (i_combine1 R128 (cvtpd_ps 256 128 a) (cvtpd_ps 256 128 b)) else NotImpl
  | R512, [a; b] =>
      if use_avx512f A then Ok (i_combine1 R256 (cvt_down 512 256 f_chop a) (cvt_down 512 256 f_chop b)) else NotImpl
  | _, _ => NotImpl
  end.
(** conv_any_to_float32.h:95-122: a single register is converted by the overload for it, more in pairs;
    [T] is the size of the result *)
Definition conv_down (f : list Z -> res Z) (va : vec) : res vec :=
  match va with
  | [a] => let* r := f [a] in Ok [r]
  | _ => conv_pairs f va
  end.
Definition to_float32_d (A : arch) (T : Z) (va : vec) : res vec := conv_down (i_to_float32_d A (vregf A T)) va.

(** conv_float_to_int32.h:311-379 *)
Definition i_to_int32_d (A : arch) (s : rsz) (l : list Z) : res Z :=
  match s, l with
  | R128, [a] =>
      if use_avx512vl A then Ok (cvt_down 256 128 dcvtt_s a)
      else if use_avx A then
        let '(a1, a2) := i_split1 R256 a in i_zip A I64 R128 false (cvt_down 128 128 dcvtt_s a1) (cvt_down 128 128 dcvtt_s a2)
      else NotImpl
  | R128, [a; b] =>
      if use_sse2 A then i_zip A I64 R128 false (cvt_down 128 128 dcvtt_s a) (cvt_down 128 128 dcvtt_s b)
      else if use_neon64 A then
        Ok (Z.lor (cvt_down 128 64 qmovn_s (v1 64 128 dsat_s a)) (Z.shiftl (cvt_down 128 64 qmovn_s (v1 64 128 dsat_s b)) 64))
      else if use_vsx206 A then i_unzip4_lo A I32 R128 (v1 64 128 dsat_s a) (v1 64 128 dsat_s b)
      else if use_msa A then i_unzip4_lo A I32 R128 (v1 64 128 dsat_s a) (v1 64 128 dsat_s b)
      else if use_null A || use_neon32 A || use_altivec A then c_cvt64 dfits_s32 a b
      else NotImpl
  | R256, [a] => if use_avx512f A then Ok (cvt_down 512 256 dcvtt_s a) else NotImpl
  | R256, [a; b] =>
      if use_avx A && negb (use_avx512f A) then Ok (i_combine1 R128 (cvt_down 256 128 dcvtt_s a) (cvt_down 256 128 dcvtt_s b)) else NotImpl
  | R512, [a; b] =>
      if use_avx512f A then Ok (i_combine1 R256 (cvt_down 512 256 dcvtt_s a) (cvt_down 512 256 dcvtt_s b)) else NotImpl
  | _, _ => NotImpl
  end.
(** conv_float_to_int32.h:214-276 *)
Definition i_to_uint32_d (A : arch) (s : rsz) (l : list Z) : res Z :=
  match s, l with
  | R128, [a] =>
      if use_avx512vl A then Ok (cvt_down 256 128 dcvtt_u a)
      else if use_avx512f A then Ok (lane 128 0 (cvt_down 512 256 dcvtt_u a))
      else NotImpl
  | R128, [a; b] =>
      if use_neon64 A then
        Ok (Z.lor (cvt_down 128 64 qmovn_u (v1 64 128 dsat_u a)) (Z.shiftl (cvt_down 128 64 qmovn_u (v1 64 128 dsat_u b)) 64))
      else if use_vsx206 A then i_unzip4_lo A I32 R128 (v1 64 128 dsat_u a) (v1 64 128 dsat_u b)
      else if use_msa A then i_unzip4_lo A I32 R128 (v1 64 128 dsat_u a) (v1 64 128 dsat_u b)
      else if use_null A || use_neon32 A || use_altivec A then c_cvt64 dfits_u32 a b
      else NotImpl
  | R256, [a] => if use_avx512f A then Ok (cvt_down 512 256 dcvtt_u a) else NotImpl
  | R512, [a; b] =>
      if use_avx512f A then Ok (i_combine1 R256 (cvt_down 512 256 dcvtt_u a) (cvt_down 512 256 dcvtt_u b)) else NotImpl
  | _, _ => NotImpl
  end.
(** conv_float_to_int32.h:278-309, 381-409: without AVX2 every AVX register of doubles gives one
    register of integers (float64<8> has its own overload, 364-367); otherwise as for float32.  core/to_int32.h:171-177 with capabilities.h:44-48. *)
Definition has_f64_to_u32 (A : arch) : bool := use_null A || use_avx512f A || use_neon64 A || use_vsx206 A || use_msa A.
Definition to_int32_d (A : arch) (T : Z) (va : vec) : res vec :=
  if use_avx A && negb (use_avx2 A) then
    match va with
    | [a; b] => Ok [cvt_down 256 128 dcvtt_s a; cvt_down 256 128 dcvtt_s b]
    | _ => vec_impl1 (fun a => i_to_int32_d A (vreg A 32 T) [a]) va
    end
  else conv_down (i_to_int32_d A (vreg A 32 T)) va.
Definition to_uint32_d (A : arch) (T : Z) (va : vec) : res vec :=
  if has_f64_to_u32 A then
    if use_avx A && negb (use_avx2 A) then vec_impl1 (fun a => i_to_uint32_d A (vreg A 32 T) [a]) va
    else conv_down (i_to_uint32_d A (vreg A 32 T)) va
  else NotImpl.
