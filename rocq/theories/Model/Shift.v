(** Shifts by one count for all lanes: simdpp/detail/insn/i_shift_l.h, i_shift_r.h and the
    public wrappers core/i_shift_l.h, core/i_shift_r.h.
    A count is an [unsigned] (0 <= c < 2^32); the value converted by splat(count) is the
    lane-width truncation.  16-count etc. are computed in unsigned arithmetic.
    256-bit rungs under SIMDPP_WORKAROUND_AVX2_SHIFT_INTRINSICS (i_shift_l.h:120-124, ...) issue
    the same instruction through inline assembly: modelled by the same function. *)
From Verif Require Export Model.SetSplat Model.Arith.

Definition usub (x y : Z) : Z := (x - y) mod 2 ^ 32.
Definition native512 := nat512.

(** the rungs shared by the 16- and 32-bit runtime shifts; null, x86, NEON, AltiVec, MSA.
    [ng]: NEON shifts right by shifting left by splat(-int(count)). *)
Definition shift_rt (A : arch) (w : ew) (s : rsz) (c : Z)
    (nul : res Z) (mm : Z -> Z) (neon vsx msa : Z -> Z) (ng : bool) : res Z :=
  match s with
  | R128 =>
      if use_null A then nul
      else if use_sse2 A then Ok (mm 128)
      else if use_neon A then let* sh := splat_rt A w R128 (if ng then - c else c) in Ok (neon sh)
      else if use_altivec A then let* sh := splat_rt A w R128 c in Ok (vsx sh)
      else if use_msa A then let* sh := splat_rt A w R128 c in Ok (msa sh) else UB
  | R256 => if use_avx2 A then Ok (mm 256) else NotImpl
  | R512 => if native512 A w then Ok (mm 512) else NotImpl
  end.
(** the same for 64-bit lanes (rungs in another order) *)
Definition shift_rt64 (A : arch) (s : rsz) (c : Z)
    (nul : res Z) (mm : Z -> Z) (neon vsx msa : Z -> Z) (ng : bool) : res Z :=
  match s with
  | R128 =>
      if use_sse2 A then Ok (mm 128)
      else if use_neon A then let* sh := splat_rt A W64 R128 (if ng then - c else c) in Ok (neon sh)
      else if use_vsx207 A then let* sh := splat_rt A W64 R128 c in Ok (vsx sh)
      else if use_msa A then let* sh := splat_rt A W32 R128 c in Ok (msa sh)   (* int32x4 shift *)
      else if use_null A || use_altivec A then nul else UB
  | R256 => if use_avx2 A then Ok (mm 256) else NotImpl
  | R512 => if use_avx512f A then Ok (mm 512) else NotImpl
  end.

(** i_shift_l.h: uint16 98-136, uint32 141-180, uint64 185-224 (not used at W8) *)
Definition i_shift_l_d (A : arch) (w : ew) (s : rsz) (a c : Z) : res Z :=
  let mm R := mm_sll (wb w) R a c in
  match w with
  | W64 => shift_rt64 A s c (null_shift_l (ut W64) 128 a c) mm (vshlq_u 64 a) (vec_sl 64 a) (msa_sll 64 a) false
  | _ => shift_rt A w s c (null_shift_l (ut w) 128 a c) mm (vshlq_u (wb w) a) (vec_sl (wb w) a) (msa_sll (wb w) a) false
  end.
(** i_shift_r.h unsigned: uint16 203-241, uint32 290-329, uint64 334-373 *)
Definition i_shift_r_ud (A : arch) (w : ew) (s : rsz) (a c : Z) : res Z :=
  let mm R := mm_srl (wb w) R a c in
  match w with
  | W64 => shift_rt64 A s c (null_shift_r (ut W64) 128 a c) mm (vshlq_u 64 a) (vec_sr 64 a) (msa_srl 64 a) true
  | _ => shift_rt A w s c (null_shift_r (ut w) 128 a c) mm (vshlq_u (wb w) a) (vec_sr (wb w) a) (msa_srl (wb w) a) true
  end.
(** i_shift_r.h:378-418 int64: SSE2/AVX2 have no 64-bit arithmetic shift: bias by 2^63,
    shift logically, subtract the shifted bias *)
Definition bias64 := 0x8000000000000000.
Definition sra64_emul (A : arch) (s : rsz) (a c : Z) : res Z :=
  let* bias := konst A W64 s bias64 in
  let* t := i_add A W64 s a bias in
  let* ret := i_shift_r_ud A W64 s t c in
  let* b := i_shift_r_ud A W64 s bias c in
  i_sub A W64 s ret b.
(** i_shift_r.h signed: int16 160-198, int32 246-285, int64 378-418 *)
Definition i_shift_r_sd (A : arch) (w : ew) (s : rsz) (a c : Z) : res Z :=
  match w with
  | W64 =>
      match s with
      | R128 =>
          if use_sse2 A then sra64_emul A R128 a c
          else if use_neon A then let* sh := splat_rt A W64 R128 (- c) in Ok (vshlq_s 64 a sh)
          else if use_vsx207 A then let* sh := splat_rt A W64 R128 c in Ok (vec_sra 64 a sh)
          else if use_msa A then let* sh := splat_rt A W32 R128 c in Ok (msa_sra 64 a sh)
          else if use_null A || use_altivec A then null_shift_r (st W64) 128 a c else UB
      | R256 => if use_avx2 A then sra64_emul A R256 a c else NotImpl
      | R512 => if use_avx512f A then Ok (mm_sra 64 512 a c) else NotImpl
      end
  | _ => shift_rt A w s c (null_shift_r (st w) 128 a c) (fun R => mm_sra (wb w) R a c)
           (vshlq_s (wb w) a) (vec_sra (wb w) a) (msa_sra (wb w) a) true
  end.

(** Compile-time counts: the rungs of the templates.  NEON needs 1 <= c for right shifts;
    the wrapper (i_shift_r.h:788-797) never passes 0.
    i_shift_l.h: uint16 286-320, uint32 324-358, uint64 362-395 *)
Definition shift_tm (A : arch) (w : ew) (s : rsz) (c : Z)
    (rt : res Z) (mm : Z -> Z) (neon : Z) (vsx : Z -> Z) (msa : Z) : res Z :=
  match s with
  | R128 =>
      if use_null A then rt
      else if use_sse2 A then Ok (mm 128)
      else if use_neon A then Ok neon
      else if use_altivec A then let* sh := konst A w R128 c in Ok (vsx sh)
      else if use_msa A then Ok msa else UB
  | R256 => if use_avx2 A then Ok (mm 256) else NotImpl
  | R512 => if native512 A w then Ok (mm 512) else NotImpl
  end.
Definition i_shift_l_dt (A : arch) (w : ew) (s : rsz) (c a : Z) : res Z :=
  let mm R := mm_sll (wb w) R a c in
  match w with
  | W64 =>
      match s with
      | R128 => if use_null A || use_altivec A then i_shift_l_d A W64 R128 a c
                else if use_sse2 A then Ok (mm 128)
                else if use_neon A then Ok (vshlq_n 64 c a)
                else if use_msa A then Ok (msa_slli 64 c a) else NotImpl
      | R256 => if use_avx2 A then Ok (mm 256) else NotImpl
      | R512 => if use_avx512f A then Ok (mm 512) else NotImpl
      end
  | _ => shift_tm A w s c (i_shift_l_d A w s a c) mm (vshlq_n (wb w) c a) (vec_sl (wb w) a) (msa_slli (wb w) c a)
  end.
(** i_shift_r.h unsigned templates: uint16 588-622, uint32 664-698, uint64 739-775 *)
Definition i_shift_r_udt (A : arch) (w : ew) (s : rsz) (c a : Z) : res Z :=
  let mm R := mm_srl (wb w) R a c in
  match w with
  | W64 =>
      match s with
      | R128 => if use_sse2 A then Ok (mm 128)
                else if use_neon A then Ok (vshrq_n_u 64 c a)
                else if use_vsx207 A then let* sh := splat_rt A W64 R128 c in Ok (vec_sr 64 a sh)
                else if use_msa A then Ok (msa_srli 64 c a)
                else if use_null A || use_altivec A then i_shift_r_ud A W64 R128 a c else UB
      | R256 => if use_avx2 A then Ok (mm 256) else NotImpl
      | R512 => if use_avx512f A then Ok (mm 512) else NotImpl
      end
  | _ => shift_tm A w s c (null_shift_r (ut w) 128 a c) mm (vshrq_n_u (wb w) c a) (vec_sr (wb w) a) (msa_srli (wb w) c a)
  end.
(** i_shift_r.h signed templates: int16 550-584, int32 626-660, int64 702-735 *)
Definition i_shift_r_sdt (A : arch) (w : ew) (s : rsz) (c a : Z) : res Z :=
  match w with
  | W64 =>
      match s with
      | R128 => if use_neon A then Ok (vshrq_n_s 64 c a)
                else if use_vsx207 A then let* sh := splat_rt A W64 R128 c in Ok (vec_sra 64 a sh)
                else if use_msa A then Ok (msa_srai 64 c a)
                else if use_null A || use_sse2 A || use_altivec A then i_shift_r_sd A W64 R128 a c else UB
      | R256 => if use_avx2 A then i_shift_r_sd A W64 R256 a c else NotImpl
      | R512 => if use_avx512f A then Ok (mm_sra 64 512 a c) else NotImpl
      end
  | _ => shift_tm A w s c (null_shift_r (st w) 128 a c) (fun R => mm_sra (wb w) R a c)
           (vshrq_n_s (wb w) c a) (vec_sra (wb w) a) (msa_srai (wb w) c a)
  end.
(** the wrappers skip a zero count: i_shift_l.h:405-414, i_shift_r.h:788-797 *)
Definition nz (f : Z -> Z -> res Z) (c a : Z) : res Z := if c =? 0 then Ok a else f c a.

(** 8-bit left shift, runtime (i_shift_l.h:31-93) *)
Definition shl8_tab (A : arch) (s : rsz) (a c : Z) : res Z :=
  let* mask := splat_rt A W16 s (wrap 16 (Z.shiftl (Z.shiftr 0x00ff (usub 8 c)) 8)) in
  let* a16 := i_shift_l_d A W16 s a c in
  i_bit_andnot A W16 s a16 mask.
Definition shl8_sse2 (A : arch) (a c : Z) : res Z :=
  let ones16 := ones 128 in                                        (* make_ones() *)
  let* m1 := i_shift_r_ud A W16 R128 ones16 (usub 16 c) in
  let* m2 := i_shift_l_d A W16 R128 m1 8 in
  let* a16 := i_shift_l_d A W16 R128 a c in
  i_bit_andnot A W16 R128 a16 m2.
Definition i_shift_l (A : arch) (w : ew) (s : rsz) (a c : Z) : res Z :=
  match w with
  | W8 =>
      match s with
      | R128 =>
          if use_null A then null_shift_l (ut W8) 128 a c
          else if use_avx2 A then shl8_tab A R128 a c
          else if use_sse2 A then shl8_sse2 A a c
          else if use_neon A then let* sh := splat_rt A W8 R128 c in Ok (vshlq_u 8 a sh)
          else if use_altivec A then let* sh := splat_rt A W8 R128 c in Ok (vec_sl 8 a sh)
          else if use_msa A then let* sh := splat_rt A W8 R128 c in Ok (msa_sll 8 a sh) else UB
      | R256 => if use_avx2 A then shl8_tab A R256 a c else NotImpl
      | R512 => if use_avx512bw A then shl8_tab A R512 a c else NotImpl
      end
  | _ => i_shift_l_d A w s a c
  end.
(** 8-bit left shift, template (i_shift_l.h:236-282) *)
Definition sse_shift_l_8 (A : arch) (s : rsz) (c a : Z) : res Z :=
  let* mask := konst A W8 s (Z.shiftr 0xff c) in
  let* a16 := i_bit_and A W8 s a mask in
  nz (i_shift_l_dt A W16 s) c a16.
Definition i_shift_l_t (A : arch) (w : ew) (s : rsz) (c a : Z) : res Z :=
  match w with
  | W8 =>
      match s with
      | R128 =>
          if use_null A then i_shift_l A W8 R128 a c
          else if use_sse2 A then sse_shift_l_8 A R128 c a
          else if use_neon A then Ok (vshlq_n 8 c a)
          else if use_altivec A then let* sh := konst A W8 R128 c in Ok (vec_sl 8 a sh)
          else if use_msa A then Ok (msa_slli 8 c a) else UB
      | R256 => if use_avx2 A then sse_shift_l_8 A R256 c a else NotImpl
      | R512 => if use_avx512bw A then sse_shift_l_8 A R512 c a else NotImpl
      end
  | _ => i_shift_l_dt A w s c a
  end.

(** 8-bit right shifts, runtime: signed (i_shift_r.h:37-95) *)
Definition sra8_emul (A : arch) (s : rsz) (a c : Z) : res Z :=
  let* lo := nz (i_shift_l_dt A W16 s) 8 a in
  let* lo := i_shift_r_sd A W16 s lo c in
  let* lo := nz (i_shift_r_udt A W16 s) 8 lo in
  let* hi := i_shift_r_sd A W16 s a (8 + c) in
  let* hi := nz (i_shift_l_dt A W16 s) 8 hi in
  i_bit_or A W16 s lo hi.
(** unsigned (i_shift_r.h:100-155): SSE2 computes the mask with shifts, AVX2 and AVX-512 with
    a scalar constant *)
Definition srl8_sse2 (A : arch) (a c : Z) : res Z :=
  let* m1 := i_shift_l_d A W16 R128 (ones 128) (usub 16 c) in
  let* m2 := nz (i_shift_r_udt A W16 R128) 8 m1 in
  let* a16 := i_shift_r_ud A W16 R128 a c in
  i_bit_andnot A W16 R128 a16 m2.
Definition srl8_tab (A : arch) (s : rsz) (a c : Z) : res Z :=
  let shift := usub 8 c in
  let* mask := splat_rt A W16 s (wrap 16 (Z.shiftl (Z.shiftr 0xff shift) shift)) in
  let* a16 := i_shift_r_ud A W16 s a c in
  i_bit_andnot A W16 s a16 mask.
Definition i_shift_r (A : arch) (sg : bool) (w : ew) (s : rsz) (a c : Z) : res Z :=
  match w with
  | W8 =>
      let emul s := if sg then sra8_emul A s a c else srl8_tab A s a c in
      match s with
      | R128 =>
          if use_null A then null_shift_r (if sg then st W8 else ut W8) 128 a c
          else if use_sse2 A then (if sg then sra8_emul A R128 a c else srl8_sse2 A a c)
          else if use_neon A then let* sh := splat_rt A W8 R128 (- c) in
                                  Ok ((if sg then vshlq_s 8 else vshlq_u 8) a sh)
          else if use_altivec A then let* sh := splat_rt A W8 R128 c in
                                  Ok ((if sg then vec_sra 8 else vec_sr 8) a sh)
          else if use_msa A then let* sh := splat_rt A W8 R128 c in
                                  Ok ((if sg then msa_sra 8 else msa_srl 8) a sh) else UB
      | R256 => if use_avx2 A then emul R256 else NotImpl
      | R512 => if use_avx512bw A then emul R512 else NotImpl
      end
  | _ => if sg then i_shift_r_sd A w s a c else i_shift_r_ud A w s a c
  end.
(** templates: signed 435-496, unsigned 500-546 (sse_shift_r_8) *)
Definition sra8_emul_t (A : arch) (s : rsz) (c a : Z) : res Z :=
  let* lo := nz (i_shift_l_dt A W16 s) 8 a in
  let* lo := nz (i_shift_r_sdt A W16 s) c lo in
  let* lo := nz (i_shift_r_udt A W16 s) 8 lo in
  let* hi := nz (i_shift_r_sdt A W16 s) (8 + c) a in
  let* hi := nz (i_shift_l_dt A W16 s) 8 hi in
  i_bit_or A W16 s lo hi.
Definition sse_shift_r_8 (A : arch) (s : rsz) (c a : Z) : res Z :=
  let* mask := konst A W8 s (Z.land (Z.shiftl 0xff c) 0xff) in
  let* a16 := i_bit_and A W8 s a mask in
  nz (i_shift_r_udt A W16 s) c a16.
Definition i_shift_r_t (A : arch) (sg : bool) (w : ew) (s : rsz) (c a : Z) : res Z :=
  match w with
  | W8 =>
      let emul s := if sg then sra8_emul_t A s c a else sse_shift_r_8 A s c a in
      match s with
      | R128 =>
          if use_null A then null_shift_r (if sg then st W8 else ut W8) 128 a c
          else if use_sse2 A then emul R128
          else if use_neon A then Ok ((if sg then vshrq_n_s 8 else vshrq_n_u 8) c a)
          else if use_altivec A then let* sh := konst A W8 R128 c in
                                  Ok ((if sg then vec_sra 8 else vec_sr 8) a sh)
          else if use_msa A then Ok ((if sg then msa_srai 8 else msa_srli 8) c a) else UB
      | R256 => if use_avx2 A then emul R256 else NotImpl
      | R512 => if use_avx512bw A then emul R512 else NotImpl
      end
  | _ => if sg then i_shift_r_sdt A w s c a else i_shift_r_udt A w s c a
  end.

(** Public functions: core/i_shift_l.h:35-109 (runtime), 215-297 (template);
    core/i_shift_r.h:36-144, 275-392.  Signed left shifts reinterpret
    as unsigned. *)
Definition shift_l (A : arch) (w : ew) (s : rsz) (va : vec) (c : Z) : res vec :=
  vec_impl1 (fun a => i_shift_l A w s a c) va.
Definition shift_r (A : arch) (sg : bool) (w : ew) (s : rsz) (va : vec) (c : Z) : res vec :=
  vec_impl1 (fun a => i_shift_r A sg w s a c) va.
Definition shift_l_t (A : arch) (w : ew) (s : rsz) (c : Z) (va : vec) : res vec :=
  if c =? 0 then Ok va else vec_impl1 (i_shift_l_t A w s c) va.
Definition shift_r_t (A : arch) (sg : bool) (w : ew) (s : rsz) (c : Z) (va : vec) : res vec :=
  if c =? 0 then Ok va else vec_impl1 (i_shift_r_t A sg w s c) va.
