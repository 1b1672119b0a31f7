(** CPU detection: dispatch/get_arch_raw_cpuid.h and
    dispatch/get_arch_gcc_builtin_cpu_supports.h. *)
From Verif Require Export Spec.Cpu Base.Bits Model.Preproc.
Open Scope Z_scope.

(** get_arch_raw_cpuid.h:76-90 get_cpu_manufacturer, the CPU_INTEL answer *)
Definition mfg_intel (c : cpu) : bool :=
  (r_ebx c 0 =? 0x756E6547) && (r_ecx c 0 =? 0x6C65746E) && (r_edx c 0 =? 0x49656E69).
(** `if (b) arch_info |= Arch::f` *)
Definition add_arch (b : bool) (f : isa) (a : Z) : Z := if b then Z.lor a (Arch f) else a.
(** (x & (1u << k)) as a condition *)
Definition bitset (x k : Z) : bool := negb (Z.land x (2 ^ k) =? 0).

(** get_arch_raw_cpuid.h:112-138: leaf 1; returns arch_info and xsave_xrstore_avail *)
Definition leaf1 (c : cpu) (a : Z) : res (Z * bool) :=
  let ecx := r_ecx c 1 in let edx := r_edx c 1 in
  let a := add_arch (bitset edx 26) SSE2 a in
  let a := add_arch (bitset ecx 0) SSE3 a in
  let a := add_arch (bitset ecx 9) SSSE3 a in
  let a := add_arch (bitset ecx 19) SSE4_1 a in
  let a := add_arch (bitset ecx 20 && mfg_intel c) POPCNT a in
  let a := add_arch (bitset ecx 23) POPCNT a in
  let a := add_arch (bitset ecx 12) FMA3 a in
  let* xs := (if bitset ecx 26
              then if xgetbv_traps c then UB else Ok (Z.land (xcr0 c) 6 =? 6)
              else Ok false) in
  Ok (add_arch (bitset ecx 28 && xs) AVX a, xs).
(** get_arch_raw_cpuid.h:97-162; UB stands for the #UD exception of XGETBV *)
Definition get_arch_raw_cpuid (c : cpu) : res Z :=
  let* p := (if 1 <=? r_eax c 0 then leaf1 c 0 else Ok (0, false)) in
  let (a, xs) := (p : Z * bool) in
  let a := (if 0x80000001 <=? r_eax c 0x80000000
            then add_arch (bitset (r_ecx c 0x80000001) 11) XOP
                   (add_arch (bitset (r_ecx c 0x80000001) 16) FMA4 a)
            else a) in
  let a := (if 7 <=? r_eax c 0
            then let ebx := r_ebx c 7 in
                 let a := add_arch (bitset ebx 5 && xs) AVX2 a in
                 let a := add_arch (bitset ebx 16 && xs) AVX512F a in
                 let a := add_arch (bitset ebx 30 && xs) AVX512BW a in
                 let a := add_arch (bitset ebx 17 && xs) AVX512DQ a in
                 add_arch (bitset ebx 31 && xs) AVX512VL a
            else a) in
  Ok a.

(** get_arch_gcc_builtin_cpu_supports.h:24-68.  [sup f] is __builtin_cpu_supports of the
    name of [f]; [gcc5] is __GNUC__ > 4. *)
Definition get_arch_gcc_builtin (gcc5 : bool) (sup : isa -> bool) : Z :=
  let all l := fold_left (fun a f => add_arch true f a) l 0 in
  let a :=
    if gcc5 && sup AVX512F then all [SSE2; SSE3; SSSE3; SSE4_1; AVX; AVX2; FMA3; AVX512F]
    else if sup AVX2 then all [SSE2; SSE3; SSSE3; SSE4_1; AVX; AVX2]
    else if sup AVX then all [SSE2; SSE3; SSSE3; SSE4_1; AVX]
    else if sup SSE4_1 then all [SSE2; SSE3; SSSE3; SSE4_1]
    else if sup SSSE3 then all [SSE2; SSE3; SSSE3]
    else if sup SSE3 then all [SSE3; SSE2]
    else if sup SSE2 then all [SSE2] else 0 in
  add_arch (sup POPCNT) POPCNT a.
