(** Instruction-set configurations. *)
From Verif Require Export Base.Bits.

(** One boolean per SIMDPP_USE_* macro (simdpp/setup_arch.h:19-123).
    [use_64] is SIMDPP_64_BITS (setup_arch.h:336-342).  Byte order: only
    little-endian POWER is modelled (SIMDPP_LITTLE_ENDIAN, setup_arch.h:349-361). *)
Record arch := mkArch {
  use_null : bool; use_sse2 : bool; use_sse3 : bool; use_ssse3 : bool;
  use_sse41 : bool; use_popcnt : bool; use_avx : bool; use_avx2 : bool;
  use_fma3 : bool; use_fma4 : bool; use_xop : bool;
  use_avx512f : bool; use_avx512bw : bool; use_avx512dq : bool; use_avx512vl : bool;
  use_neon : bool; use_neon_flt_sp : bool;
  use_altivec : bool; use_vsx206 : bool; use_vsx207 : bool;
  use_msa : bool; use_64 : bool;
  wa_xop_com : bool; wa_avx2_shift : bool; cc_gnuc : bool
}.
(** [wa_xop_com] = SIMDPP_WORKAROUND_XOP_COM, [wa_avx2_shift] =
    SIMDPP_WORKAROUND_AVX2_SHIFT_INTRINSICS (detail/workarounds.h:14-120), [cc_gnuc] =
    __GNUC__ (defined by gcc, clang and icc): compiler-dependent switches that
    select between implementations. *)

(** setup_arch.h:363-366 *)
Definition use_neon32 A := use_neon A && negb (use_64 A).
Definition use_neon64 A := use_neon A && use_64 A.
Definition use_neon32_flt_sp A := use_neon_flt_sp A && negb (use_64 A).
Definition use_neon_no_flt_sp A := use_neon A && negb (use_neon_flt_sp A).

(** The configurations that can arise: closed under the implications of
    detail/preprocess_single_arch.h:330-430 (proved of the preprocessor model in
    Thm/T_Preproc.v: [closure_valid]), NULL exactly when no SIMD family is enabled,
    FMA3 and FMA4 not together (:432-434), NEON_FLT_SP implied on 64-bit ARM
    (setup_arch.h:344-347), at most one CPU family, because no compiler has
    the intrinsic headers of two families, and not XOP together with AVX-512 (no such
    CPU exists, and cmp_eq.h:195-198 would return a vector as a k-mask: it does not
    compile), and MSA never with SIMDPP_64_BITS (setup_arch.h:336-342 does not know
    64-bit MIPS). *)
Definition valid_arch (A : arch) : bool :=
  implb (use_avx512vl A) (use_avx512f A) &&
  implb (use_avx512dq A) (use_avx512f A) &&
  implb (use_avx512bw A) (use_avx512f A) &&
  implb (use_avx512f A) (use_avx2 A) &&
  implb (use_avx2 A) (use_avx A) &&
  implb (use_avx A) (use_sse41 A) &&
  implb (use_fma3 A) (use_sse3 A) &&
  implb (use_fma4 A) (use_sse3 A) &&
  implb (use_xop A) (use_sse3 A) &&
  implb (use_sse41 A) (use_ssse3 A) &&
  implb (use_popcnt A) (use_ssse3 A) &&
  implb (use_ssse3 A) (use_sse3 A) &&
  implb (use_sse3 A) (use_sse2 A) &&
  implb (use_neon_flt_sp A) (use_neon A) &&
  implb (use_neon A && use_64 A) (use_neon_flt_sp A) &&
  implb (use_vsx207 A) (use_vsx206 A) &&
  implb (use_vsx206 A) (use_altivec A) &&
  negb (use_fma3 A && use_fma4 A) &&
  Bool.eqb (use_null A)
    (negb (use_sse2 A || use_neon A || use_altivec A || use_msa A)) &&
  negb (use_sse2 A && use_neon A) && negb (use_sse2 A && use_altivec A) &&
  negb (use_sse2 A && use_msa A) && negb (use_neon A && use_altivec A) &&
  negb (use_neon A && use_msa A) && negb (use_altivec A && use_msa A) &&
  negb (use_xop A && use_avx512f A) &&
  negb (use_msa A && use_64 A).

(** Element widths. *)
Inductive ew := W8 | W16 | W32 | W64.
Definition wb (w : ew) : Z := match w with W8 => 8 | W16 => 16 | W32 => 32 | W64 => 64 end.

(** Native register sizes. *)
Inductive rsz := R128 | R256 | R512.
Definition rbits (s : rsz) : Z := match s with R128 => 128 | R256 => 256 | R512 => 512 end.

(** Which register sizes exist for integer elements of width w
    (the guards around types/int8x32.h, int8x64.h, int32x16.h ...). *)
Definition avail_int (A : arch) (w : Z) (s : rsz) : bool :=
  match s with
  | R128 => true
  | R256 => use_avx2 A
  | R512 => if w <=? 16 then use_avx512bw A else use_avx512f A
  end.
Definition avail_flt (A : arch) (s : rsz) : bool :=
  match s with R128 => true | R256 => use_avx A | R512 => use_avx512f A end.

(** SIMDPP_FAST_INT<w>_SIZE and SIMDPP_FAST_FLOAT<w>_SIZE as register sizes
    (types/fwd.h:88-119). *)
Definition fast_int (A : arch) (w : Z) : rsz :=
  if use_avx512bw A then R512
  else if use_avx512f A then (if w <=? 16 then R256 else R512)
  else if use_avx2 A then R256 else R128.
Definition fast_flt (A : arch) : rsz :=
  if use_avx512f A then R512 else if use_avx A then R256 else R128.

(** Reference configurations used in examples. *)
Definition arch_null := mkArch true false false false false false false false
  false false false false false false false false false false false false false true false false true.
Definition arch_sse2 := mkArch false true false false false false false false
  false false false false false false false false false false false false false true false false true.
Definition arch_ssse3 := mkArch false true true true false false false false
  false false false false false false false false false false false false false true false false true.
Definition arch_sse41 := mkArch false true true true true false false false
  false false false false false false false false false false false false false true false false true.
Definition arch_avx := mkArch false true true true true false true false
  false false false false false false false false false false false false false true false false true.
Definition arch_avx2 := mkArch false true true true true false true true
  false false false false false false false false false false false false false true false false true.
Definition arch_xop := mkArch false true true false false false false false
  false false true false false false false false false false false false false true false false true.
Definition arch_avx512f := mkArch false true true true true false true true
  false false false true false false false false false false false false false true false false true.
Definition arch_avx512all := mkArch false true true true true true true true
  true false false true true true true false false false false false false true false false true.
Definition arch_neon32 := mkArch false false false false false false false false
  false false false false false false false true false false false false false false false false true.
Definition arch_neon64 := mkArch false false false false false false false false
  false false false false false false false true true false false false false true false false true.
Definition arch_altivec := mkArch false false false false false false false false
  false false false false false false false false false true false false false true false false true.
Definition arch_vsx207 := mkArch false false false false false false false false
  false false false false false false false false false true true true false true false false true.
Definition arch_msa := mkArch false false false false false false false false
  false false false false false false false false false false false false true false false false true.

Example ref_archs_valid :
  forallb valid_arch [arch_null; arch_sse2; arch_ssse3; arch_sse41; arch_avx; arch_avx2;
    arch_xop; arch_avx512f; arch_avx512all; arch_neon32; arch_neon64; arch_altivec;
    arch_vsx207; arch_msa] = true.
Proof. reflexivity. Qed.
