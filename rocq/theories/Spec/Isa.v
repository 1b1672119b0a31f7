(** Instruction sets and what each of them presupposes.  Mentions no library code. *)
From Coq Require Export ZArith List Bool Lia Relations.
Export ListNotations.
Open Scope Z_scope.

Inductive isa :=
| SSE2 | SSE3 | SSSE3 | SSE4_1 | POPCNT | AVX | AVX2 | FMA3 | FMA4 | XOP
| AVX512F | AVX512BW | AVX512DQ | AVX512VL
| NEON | NEON_FLT_SP | ALTIVEC | VSX_206 | VSX_207 | MSA.
Definition all_isa : list isa :=
  [SSE2; SSE3; SSSE3; SSE4_1; POPCNT; AVX; AVX2; FMA3; FMA4; XOP;
   AVX512F; AVX512BW; AVX512DQ; AVX512VL; NEON; NEON_FLT_SP; ALTIVEC; VSX_206; VSX_207; MSA].
Lemma all_isa_in f : In f all_isa.
Proof. destruct f; cbn; tauto. Qed.

(** CPU families *)
Inductive family := X86 | ARM | POWER | MIPS.
Definition fam_of (f : isa) : family :=
  match f with
  | NEON | NEON_FLT_SP => ARM | ALTIVEC | VSX_206 | VSX_207 => POWER | MSA => MIPS | _ => X86
  end.

(** Documented immediate predecessors (doc of SIMDPP_ARCH_*, setup_arch / w/simdpp/arch). *)
Inductive needs : isa -> isa -> Prop :=
| n_sse3 : needs SSE3 SSE2 | n_ssse3 : needs SSSE3 SSE3 | n_sse41 : needs SSE4_1 SSSE3
| n_popcnt : needs POPCNT SSSE3 | n_avx : needs AVX SSE4_1 | n_avx2 : needs AVX2 AVX
| n_fma3 : needs FMA3 SSE3 | n_fma4 : needs FMA4 SSE3 | n_xop : needs XOP SSE3
| n_512f : needs AVX512F AVX2 | n_512bw : needs AVX512BW AVX512F
| n_512dq : needs AVX512DQ AVX512F | n_512vl : needs AVX512VL AVX512F
| n_fltsp : needs NEON_FLT_SP NEON | n_206 : needs VSX_206 ALTIVEC | n_207 : needs VSX_207 VSX_206.
Definition implies : isa -> isa -> Prop := clos_refl_trans isa needs.
