# Formal model of libsimdpp in Coq — design

## 1. What is modelled and how

libsimdpp is a header-only C++ library: one API (`simdpp/core/*.h`) over one function per
instruction (`simdpp/detail/insn/*.h`), each of which is an `#if` ladder over the enabled
instruction sets. Two kinds of code are behind each rung: plain C++ loops (`detail/null/*.h`)
and compositions of vendor intrinsics. The model follows that structure:

* **Registers** are integers `0 <= r < 2^R` (`R` = 128, 256, 512), exactly a bag of bits.
  `lane w i r` is the i-th `w`-bit lane (little-endian lane order: lane 0 in the low bits),
  `mk w n f` builds a register from lanes (theories/Base/Bits.v).
* **Vectors** of any length are lists of base registers, as in the C++ (`vec<I>()`), and the
  `SIMDPP_VEC_ARRAY_IMPL*` macros are recursion over the list (theories/Base/Vec.v).
* **Instruction sets**: a record with one boolean per `SIMDPP_USE_*` macro, the closure rules of
  `detail/preprocess_single_arch.h`, and the `#if` ladders written as `if use_X A then ...`
  (theories/Base/Arch.v). Falling off the end of a non-void function is `UB`;
  `SIMDPP_NOT_IMPLEMENTED*` is `NotImpl`.
* **C++ scalar code** (the no-SIMD backend) is written over typed integer values with explicit
  integer promotion, usual arithmetic conversions, wrap of unsigned types, and *undefined
  behaviour as a distinct outcome* (`UB`) for signed overflow, bad shift counts, etc. (Base/Cpp.v).
* **Intrinsics** are Gallina functions on registers, one per instruction, written from the vendor
  manuals (theories/Base/X86.v, Neon.v, Ppc.v, Msa.v). They are part of the trusted base.
* Runtime dispatch, CPU detection, preprocessor closure/namespace generation, allocator and the
  algorithms are ordinary functions over N/Z, lists and strings.

Files: `theories/Base` (bit library, intrinsics, C++ semantics), `theories/Spec` (the small
independent specifications), `theories/Model` (one definition per C++ function, with citations),
`theories/Proof` (lemmas), `theories/Thm` (property theorems and, at the end of each file,
the concrete cases that meet their hypotheses).

## 2. Property plan

The status of each property and what is missing is in MANIFEST.json; the refuted part of a
partial claim is always a theorem with the suffix `_refuted` that exhibits a concrete input.

| property | model (theories/Model) | statement (theories/Spec) and proof (theories/Thm, Proof) |
|---|---|---|
| C01-C07, C13 | Arith, Abs, Mul, MinMax, Popcnt: every `#if` rung of `i_add.h`, `i_sub.h`, `i_mul*.h`, `i_min.h`, ... | Lanewise; per-lane lemma per rung, lifted to every vector length by induction on the register list |
| C08, C11, C12, C34, C41 | Cmp, Bitwise, BitApi, Blend, Mask with the three mask representations (0/1 lanes, all-ones lanes, AVX-512 k-masks) | Masks: abstraction of a mask to `list bool`; per-lane lemmas |
| C09, C10 | Shift, ShiftV, including the 8-bit and arithmetic emulations | Lanewise; `Z.testbit` extensionality |
| C14, C35, C52 | Reduce, ReduceAdd, ReduceMul, ReducePop, BitTest, FReduce | Reduce, BitTest, FloatReduce; fold lemmas, induction over registers |
| C15 | Null, Scalar: the no-SIMD code in the UB-aware C++ semantics | defined behaviour iff the lanes are safe |
| C16-C21 | Permute, Shuf*, Perm64, NeonShuf, Move, Unzip, Transpose, Bytes, ZBytes, Extract, ShufApi* | Shuffles: lane-index functions; index arithmetic over all selectors |
| C22, C23 | LoadStore, Packed, LoadSplat over a byte-addressed memory | Mem: what is read, what is written, nothing else changed |
| C24, C40 | Dispatch, CpuInfo: arbitrary version lists; any sorted permutation for `std::sort` | Dispatch; induction over the list |
| C25, C42 | Cpuid: CPUID/XCR0 answers and compiler builtins as oracles | Cpu; bit lemmas; refutation witnesses for missing checks |
| C26, C27 | Preproc: macro closure and name pasting | case analysis, string lemmas (Text) |
| C28 | Alloc: pointer arithmetic mod 2^64 on an oracle heap | div/mod arithmetic; overflow refuted |
| C29 | Extract / for_each | Elements |
| C30 | Bitonic: the network over min/max/shuffles | Sorted; 0-1 principle (ZeroOne) |
| C31 | Expr: the tag arithmetic of `get_expr*.h` | Types; case analysis over all tags |
| C32, C33 | Convert, Narrow, ConvApi | Typed |
| C36, C43, C44 | Floats: comparisons, add, sub, sign operations, NaN tests | Floats: IEEE bit patterns, exact values as integers in units of the last place |
| C37, C38 | Program, FProgram, SProgram, RProgram (with a final reduction): expression languages run by calling the library | Program, FProgram, FUnits, SProgram: the value of one lane (with shuffles: from the lanes of its 128-bit block); mutual induction on programs |
| C59 | FArith, FMinMax, Floats, FProgram (NewtonP: composition of the estimate steps) | FUnits: what a unit computes in one lane, flushing, Newton steps; `is_unit` describes each operator |
| C60 | Kernel: loads, a program of SProgram, a store | Kernel: the array the program computes; load_spec, store_spec and shuffle_program_spec composed; equal numbers have equal bytes |
| C39, C58 | MakeConst, SetSplat, LoadSplat, MakeFloat | cyclic lists; nearest float32 for make_float |
| C45 | Cast | same bits for every lane width |
| C46 | FMinMax | FloatOrd; by value when no operand is NaN |
| C47-C49 | FArith: mul, div, sqrt, fmadd, fmsub; the estimates of the hardware are an arbitrary function `est` | FloatArith: correctly rounded = nearest representable magnitude, ties to even |
| C50, C54-C56 | FConv, FConv64, FConvI64, FConvS | FloatConv*, relations `conv_rel` with the domain on which they hold |
| C51 | FRound | rounds_to: integral, not past the argument in the direction, nearest such |
| C53 | DivP | DivP; long division invariant |
| C57 | Log2 | exact composition of float operations; accuracy over Coq's reals (Log2R, Log2AccP) |

Not expressible here (one line each): performance claims (`@icost`), compile-time overload
resolution/ambiguity, data races on the dispatcher's cached pointer (declared the user's duty),
compiler bugs worked around by `detail/workarounds.h`.

Changes of scope made on the way: C06's quantifier follows the headers ("supported since AVX2,
NEON64" for 64-bit elements).

## 3. Trusted base

* **Coq 8.16.1's kernel** (and `vm_compute` for concrete examples and small finite case
  analyses; `coqchk` re-checks everything without it). No native_compute, no plugins, no
  functors or module types, no axioms of our own.
* **Print Assumptions.** Every theorem named in MANIFEST.json is "Closed under the global
  context", except `log2_accuracy_partial` and `log2_positive_finite_accuracy_partial`, which
  speak about Coq's real numbers and depend on the four axioms of the standard library behind
  them: `ClassicalDedekindReals.sig_forall_dec`, `ClassicalDedekindReals.sig_not_dec`,
  `FunctionalExtensionality.functional_extensionality_dep`, `Classical_Prop.classic`.
  `coqchk -o` additionally lists what the compiled libraries declare in their own modules
  (`Coq.ssr.ssrunder.Under_rel.*`, `Coq.Reals.Rdefinitions.RbaseSymbolsImpl.*`); those are the
  standard library's module-sealed definitions, not assumptions of a theorem here.
* **The intrinsics** (theories/Base/{X86,Neon,Ppc,Msa,IsaShuf,Memory}.v, and the float
  instructions in Model/{Floats,FMinMax,FArith,FConv*,FRound,FReduce}.v), written from the vendor
  manuals. A wrong transcription of an instruction would go unnoticed.
* **The C++ semantics** of the scalar code (Base/Cpp.v): LP64-style widths, two's complement,
  promotion, UB on signed overflow and on bad shift counts; conversion of an out-of-range integer
  to a signed type wraps (as gcc and clang define it).
* **The reading of the templates**: overload resolution, the `#if` ladders and the vector loops
  were transcribed by hand; each definition cites file and lines.

## 4. Modelling decisions a reader should know

* Per-instruction CPUID needs are not tracked by the value model: `valid_arch` contains exactly the
  combinations of macros the preprocessor can produce.
* PowerPC is little-endian only; the big-endian variants of packed loads and casts are not modelled.
  `vec_lvsl`/`vec_lvsr` are taken in element order.
* Floats are bit patterns. `f_qnan` stands for "some quiet NaN": NaN payloads are not modelled,
  and no theorem says which NaN results. Rounding is to nearest even, no contraction of
  a*b+c. Units that flush denormals (32-bit ARM NEON, AltiVec without VSX) have their own
  exact `_flush` theorems.
* The reciprocal estimates (`rcp_e`, `rsqrt_e`) are an arbitrary function; nothing is claimed about
  their accuracy.
* Memory is a map from addresses to bytes; aligned instructions on misaligned addresses are UB;
  `mem_block`'s stack array lies at an aligned address.
* The undefined upper half of casts to wider registers is modelled as zero, except in Perm64 and
  set_splat, where it is arbitrary junk.
* `xvcvdpsp` writes its result in both words of a doubleword; MSA's FEXDO takes its left (high)
  half from the first operand, as in the manual.

## 5. Not modelled

`core/cache.h` (prefetch), `core/align_v128.h` and other one-line forwarders
(`construct_eval.h`, `eval_scalar.h`, `zip128.h`, `deprecations.h`, `not_implemented.h`),
`detail/neon/math_int.h`, `detail/neon/memory_store.h`, the accuracy of `rcp_e`/`rsqrt_e`,
MSVC-only and 32-bit-only variants, make_float assigned to integer vectors, big-endian PowerPC,
and the test and benchmark code.

## 6. Tests of the theorems

`seeded/LOG.jsonl` has one line per edit of the model by a realistic bug, the theorems that failed
to build, and the theorems tightened where nothing failed.
