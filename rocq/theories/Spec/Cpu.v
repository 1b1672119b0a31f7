(** What it takes for an x86 instruction-set extension to be executable, from the
    processor manuals (Intel SDM vol. 1 ch. 12-15, AMD APM vol. 3 app. D).  Mentions no
    library code. *)
From Verif Require Export Spec.Isa.
Open Scope Z_scope.

(** CPUID results (sub-leaf 0) and the XCR0 register.  Support of the SSE register state
    (CR4.OSFXSR) cannot be seen from user mode and is assumed. *)
Record cpu := mkCpu { cpuid : Z -> Z * Z * Z * Z; xcr0 : Z }.
Definition r_eax (c : cpu) (l : Z) : Z := let '(a, _, _, _) := cpuid c l in a.
Definition r_ebx (c : cpu) (l : Z) : Z := let '(_, b, _, _) := cpuid c l in b.
Definition r_ecx (c : cpu) (l : Z) : Z := let '(_, _, d, _) := cpuid c l in d.
Definition r_edx (c : cpu) (l : Z) : Z := let '(_, _, _, d) := cpuid c l in d.
Definition has_leaf (c : cpu) (l : Z) : bool := l <=? r_eax c 0.
Definition has_ext (c : cpu) (l : Z) : bool := l <=? r_eax c 0x80000000.

(** the OS has enabled XGETBV and saves the YMM / ZMM registers *)
Definition osxsave (c : cpu) : bool := has_leaf c 1 && Z.testbit (r_ecx c 1) 27.
Definition ymm_state (c : cpu) : bool := osxsave c && Z.testbit (xcr0 c) 1 && Z.testbit (xcr0 c) 2.
Definition zmm_state (c : cpu) : bool :=
  ymm_state c && Z.testbit (xcr0 c) 5 && Z.testbit (xcr0 c) 6 && Z.testbit (xcr0 c) 7.

(** the processor implements the extension *)
Definition implemented (c : cpu) (f : isa) : bool :=
  match f with
  | SSE2 => has_leaf c 1 && Z.testbit (r_edx c 1) 26
  | SSE3 => has_leaf c 1 && Z.testbit (r_ecx c 1) 0
  | SSSE3 => has_leaf c 1 && Z.testbit (r_ecx c 1) 9
  | SSE4_1 => has_leaf c 1 && Z.testbit (r_ecx c 1) 19
  | POPCNT => has_leaf c 1 && Z.testbit (r_ecx c 1) 23
  | AVX => has_leaf c 1 && Z.testbit (r_ecx c 1) 28
  | FMA3 => has_leaf c 1 && Z.testbit (r_ecx c 1) 12
  | FMA4 => has_ext c 0x80000001 && Z.testbit (r_ecx c 0x80000001) 16
  | XOP => has_ext c 0x80000001 && Z.testbit (r_ecx c 0x80000001) 11
  | AVX2 => has_leaf c 7 && Z.testbit (r_ebx c 7) 5
  | AVX512F => has_leaf c 7 && Z.testbit (r_ebx c 7) 16
  | AVX512DQ => has_leaf c 7 && Z.testbit (r_ebx c 7) 17
  | AVX512BW => has_leaf c 7 && Z.testbit (r_ebx c 7) 30
  | AVX512VL => has_leaf c 7 && Z.testbit (r_ebx c 7) 31
  | _ => false
  end.
(** ... and the OS supports the registers it uses *)
Definition os_support (c : cpu) (f : isa) : bool :=
  match f with
  | AVX | AVX2 | FMA3 | FMA4 | XOP => ymm_state c
  | AVX512F | AVX512BW | AVX512DQ | AVX512VL => zmm_state c
  | _ => true
  end.
Definition executable (c : cpu) (f : isa) : bool := implemented c f && os_support c f.
(** XGETBV raises #UD unless CR4.OSXSAVE is set *)
Definition xgetbv_traps (c : cpu) : bool := negb (osxsave c).
