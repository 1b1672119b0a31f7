(** The instruction-set preprocessor: detail/preprocess_single_arch.h, detail/insn_id.h,
    setup_arch.h, dispatch/preprocess_single_compile_arch.h. *)
From Verif Require Export Spec.Isa Base.Bits.
From Coq Require Export String Ascii.
Open Scope Z_scope.

(** The SIMDPP_ARCH_PP_USE_* macros: defined or not. *)
Definition flags := isa -> bool.
Definition isa_eq_dec (f g : isa) : {f = g} + {f <> g}.
Proof. decide equality. Defined.
Definition isa_eqb (f g : isa) : bool := if isa_eq_dec f g then true else false.
(** #define SIMDPP_ARCH_PP_USE_<f> 1 *)
Definition define (f : isa) (E : flags) : flags := fun g => isa_eqb f g || E g.
(** #if USE_<f>  #ifndef USE_<g>  #define USE_<g> 1: afterwards <h> is defined when it
    was before, or when it is <g> and <f> was defined *)
Definition when (f g : isa) (E : flags) : flags := fun h => E h || (isa_eqb g h && E f).

(** preprocess_single_arch.h:271-351: from the SIMDPP_ARCH_* macros of the command line *)
Definition from_macros (defined : flags) : flags := defined.

(** detail/insn_id.h:37-57 SIMDPP_INSN_MASK_* *)
Definition insn_mask (f : isa) : Z :=
  match f with
  | SSE2 => 0x2 | SSE3 => 0x4 | SSSE3 => 0x8 | SSE4_1 => 0x10 | POPCNT => 0x20
  | AVX => 0x40 | AVX2 => 0x80 | FMA3 => 0x100 | FMA4 => 0x200 | XOP => 0x400
  | AVX512F => 0x800 | AVX512BW => 0x1000 | AVX512DQ => 0x2000 | AVX512VL => 0x4000
  | NEON => 0x8000 | NEON_FLT_SP => 0x10000 | ALTIVEC => 0x20000
  | VSX_206 => 0x40000 | VSX_207 => 0x80000 | MSA => 0x100000
  end.
(** A list element: the name of an instruction set, or anything else (an identifier
    that the #if evaluates to 0, or SIMDPP_ARCH_X86_NULL whose mask is 0x1). *)
Definition entry_mask (e : option isa) : Z := match e with Some f => insn_mask f | None => 0 end.
(** preprocess_single_arch.h:186-205 SIMDPP_ARCH_CREATE_MASK2: only the first 14 entries
    take part, the 14 zeros appended fill the rest *)
Definition create_mask (l : list (option isa)) : Z :=
  fold_right Z.lor 0 (map entry_mask (firstn 14 (l ++ repeat None 14))).
(** preprocess_single_arch.h:207-266 *)
Definition from_list (l : list (option isa)) : flags :=
  fun f => Z.land (create_mask l) (insn_mask f) =? insn_mask f.

(** preprocess_single_arch.h:354-450, in source order *)
Definition closure (E : flags) : flags :=
  let E := when AVX512VL AVX512F E in
  let E := when AVX512DQ AVX512F E in
  let E := when AVX512BW AVX512F E in
  let E := when AVX512F AVX2 E in
  let E := when AVX2 AVX E in
  let E := when AVX SSE4_1 E in
  let E := when FMA3 SSE3 E in
  let E := when FMA4 SSE3 E in
  let E := when XOP SSE3 E in
  let E := when SSE4_1 SSSE3 E in
  let E := when POPCNT SSSE3 E in
  let E := when SSSE3 SSE3 E in
  let E := when SSE3 SSE2 E in
  let E := when NEON_FLT_SP NEON E in
  let E := when VSX_207 VSX_206 E in
  let E := when VSX_206 ALTIVEC E in E.

(** preprocess_single_arch.h:452-455 SIMDPP_ARCH_PP_USE_NULL *)
Definition pp_null (E : flags) : bool :=
  negb (E SSE2 || E NEON || E NEON_FLT_SP || E ALTIVEC || E MSA).
(** preprocess_single_arch.h:457-459: #error *)
Definition pp_error (E : flags) : bool := E FMA3 && E FMA4.
(** The whole file: None when compilation stops *)
Definition preprocess (inp : flags) : option flags :=
  let E := closure inp in if pp_error E then None else Some E.

(** preprocess_single_arch.h:461-527 SIMDPP_ARCH_PP_NS_USE_* *)
Definition ns_use (E : flags) (f : isa) : bool :=
  match f with
  | SSE2 => E SSE2 && negb (E SSE3)
  | SSE3 => E SSE3 && negb (E SSSE3) && negb (E XOP) && negb (E FMA3) && negb (E FMA4)
  | SSSE3 => E SSSE3 && negb (E SSE4_1)
  | SSE4_1 => E SSE4_1 && negb (E AVX)
  | POPCNT => E POPCNT
  | AVX => E AVX && negb (E AVX2)
  | AVX2 => E AVX2 && negb (E AVX512F)
  | AVX512F => E AVX512F && negb (E AVX512BW) && negb (E AVX512DQ) && negb (E AVX512VL)
  | AVX512BW => E AVX512BW | AVX512DQ => E AVX512DQ | AVX512VL => E AVX512VL
  | FMA3 => E FMA3 | FMA4 => E FMA4 | XOP => E XOP
  | NEON => E NEON && negb (E NEON_FLT_SP)
  | NEON_FLT_SP => E NEON_FLT_SP
  | ALTIVEC => E ALTIVEC && negb (E VSX_206)
  | VSX_206 => E VSX_206 && negb (E VSX_207)
  | VSX_207 => E VSX_207
  | MSA => E MSA
  end.

(** detail/insn_id.h:13-33 SIMDPP_INSN_ID_* *)
Definition insn_id (f : isa) : string :=
  match f with
  | SSE2 => "_sse2" | SSE3 => "_sse3" | SSSE3 => "_ssse3" | SSE4_1 => "_sse4p1"
  | POPCNT => "_popcnt" | AVX => "_avx" | AVX2 => "_avx2" | FMA3 => "_fma3"
  | FMA4 => "_fma4" | XOP => "_xop" | AVX512F => "_avx512f" | AVX512BW => "_avx512bw"
  | AVX512DQ => "_avx512dq" | AVX512VL => "_avx512vl" | NEON => "_neon"
  | NEON_FLT_SP => "_neonfltsp" | ALTIVEC => "_altivec" | VSX_206 => "_vsx_206"
  | VSX_207 => "_vsx_207" | MSA => "_msa"
  end%string.
(** setup_arch.h:125-254 (and collect_macros_generated.h:35-162 for a dispatched
    architecture): the pasted identifier *)
Definition ns_order : list isa :=
  [SSE2; SSE3; SSSE3; SSE4_1; POPCNT; AVX; AVX2; AVX512F; AVX512BW; AVX512DQ; AVX512VL;
   FMA3; FMA4; XOP; NEON; NEON_FLT_SP; MSA; ALTIVEC; VSX_206; VSX_207].
Definition paste (l : list string) : string := fold_right append EmptyString l.
Definition arch_namespace (E : flags) : string :=
  append "arch" (append (if pp_null E then "_null" else EmptyString)
    (paste (map (fun f => if ns_use E f then insn_id f else EmptyString) ns_order)))%string.

(** dispatch/arch.h:25-76, the Arch bit mask type *)
Definition arch_bit (f : isa) : Z :=
  match f with
  | SSE2 => 1 | SSE3 => 2 | SSSE3 => 3 | SSE4_1 => 4 | POPCNT => 5 | AVX => 6 | AVX2 => 7
  | FMA3 => 8 | FMA4 => 9 | XOP => 10 | AVX512F => 11 | AVX512BW => 12 | AVX512DQ => 13
  | AVX512VL => 14 | NEON => 0 | NEON_FLT_SP => 1 | ALTIVEC => 0 | VSX_206 => 1
  | VSX_207 => 2 | MSA => 0
  end.
Definition Arch (f : isa) : Z := 2 ^ arch_bit f.

(** dispatch/preprocess_single_compile_arch.h:45-108 this_compile_arch() *)
Definition this_compile_arch (E : flags) : Z :=
  fold_left (fun res f => if E f then Z.lor res (Arch f) else res) all_isa 0.

(** setup_arch.h:336-347: what the library code itself tests afterwards.  [bits64] is
    SIMDPP_64_BITS. *)
Definition setup (bits64 : bool) (E : flags) : flags :=
  if E NEON && bits64 then define NEON_FLT_SP E else E.
