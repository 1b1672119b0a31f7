(** Bitwise operations: simdpp/detail/insn/bit_{and,andnot,or,xor,not}.h and
    conv_to_mask.inl, compare into masks where they need it. *)
From Verif Require Export Model.Mask.

Definition nat512 (A : arch) (w : ew) : bool :=
  match w with W8 | W16 => use_avx512bw A | _ => use_avx512f A end.

(** the common shape of i_bit_and/andnot/or/xor on vectors: uint8<16> has the full
    ladder; uint16 and uint32 go through uint8; uint64 has a scalar rung for AltiVec
    without 64-bit lanes, else goes through uint8.  256- and 512-bit versions are direct.
    (bit_and.h:28-56, 127-145, 216-235, 308-331) *)
Definition bit_ladder (A : arch) (w : ew) (s : rsz)
    (nul : cty -> Z -> Z -> Z -> res Z) (sse neon ppc msa : Z -> Z -> Z) (a b : Z) : res Z :=
  let u8 :=
    if use_null A then nul (ut W8) 128 a b
    else if use_sse2 A then Ok (sse a b)
    else if use_neon A then Ok (neon a b)
    else if use_altivec A then Ok (ppc a b)
    else if use_msa A then Ok (msa a b) else UB in
  match s with
  | R128 => match w with
    | W64 => if use_null A || (use_altivec A && negb (use_vsx207 A)) then nul (ut W64) 128 a b else u8
    | _ => u8
    end
  | R256 => if use_avx2 A then Ok (sse a b) else NotImpl
  | R512 => if nat512 A w then Ok (sse a b) else NotImpl
  end.

(** bit_and.h: u8 28-56, u16 127-145, u32 216-235, u64 308-331 *)
Definition i_bit_and A w s := bit_ladder A w s null_bit_and mm_and vandq vec_and msa_and.
(** bit_andnot.h, same lines: a & ~b.  x86 swaps the operands of andnot; MSA computes
    and(a, nor(b, b)). *)
Definition i_bit_andnot A w s :=
  bit_ladder A w s null_bit_andnot (fun a b => mm_andnot b a) vbicq vec_andc
    (fun a b => msa_and a (msa_nor b b)).
(** bit_or.h: u8 28-56, u16 94-112, u32 150-169, u64 208-231; bit_xor.h: same lines *)
Definition i_bit_or A w s := bit_ladder A w s null_bit_or mm_or vorrq vec_or msa_or.
Definition i_bit_xor A w s := bit_ladder A w s null_bit_xor mm_xor veorq vec_xor msa_xor.

(** bit_not.h: u8 28-61, u16 65-83, u32 88-108, u64 113-141 *)
Definition i_bit_not (A : arch) (w : ew) (s : rsz) (a : Z) : res Z :=
  let u8_128 :=
    if use_null A then null_bit_not (ut W8) 128 a
    else if use_sse2 A then let* c := konst A W8 R128 255 in i_bit_xor A W8 R128 a c
    else if use_neon A then Ok (vmvnq a)
    else if use_altivec A then Ok (vec_nor a a)
    else if use_msa A then Ok (msa_nor a a) else UB in
  match s with
  | R128 => match w with
    | W64 => if use_null A || (use_altivec A && negb (use_vsx207 A))
             then null_bit_not (ut W64) 128 a else u8_128
    | _ => u8_128
    end
  | R256 => if use_avx2 A then let* c := konst A W8 R256 255 in i_bit_xor A W8 R256 a c else NotImpl
  | R512 => if nat512 A w then Ok (mm_ternarylogic 512 a a a 1) else NotImpl
  end.

(** cmp_neq.h (NULL rungs) as used by to_mask; conv_to_mask.inl: u8 22-50, u16 56-84,
    u32 90-118, u64 124-152.  The lanes of [a] must be all-ones or zero (documented). *)
Definition i_to_mask (A : arch) (w : ew) (s : rsz) (a : Z) : res Z :=
  match s with
  | R128 =>
      match mk_int A w R128 with
      | KNull => null_cmp_neq (ut w) 128 a 0
      | KBits => Ok (mm_movepi_mask (wb w) 128 a)
      | KVec => Ok a
      end
  | R256 => match mk_int A w R256 with
            | KBits => Ok (mm_movepi_mask (wb w) 256 a)
            | _ => Ok a
            end
  | R512 => match w with
            | W8 | W16 => Ok (mm_movepi_mask (wb w) 512 a)
            | _ => Ok (mm_test_mask (wb w) 512 a a)
            end
  end.

(** vector, mask: bit_and.h u8 61-89, u16 150-178, u32 240-270, u64 336-365;
    bit_andnot.h same lines *)
Definition i_bit_and_vm (A : arch) (w : ew) (s : rsz) (a m : Z) : res Z :=
  match mk_int A w s with
  | KNull => null_bit_and_vm (ut w) 128 a m
  | KBits => Ok (mm_maskz_mov (wb w) (rbits s) m a)
  | KVec => let* v := unmask A w s m in i_bit_and A w s a v
  end.
(** the type of ~mask is the promoted k-mask type: 32 bits for 8/16-bit masks; only the
    low lanes are used *)
Definition kbits_of (w : ew) (s : rsz) : Z :=
  let n := rbits s / wb w in if n <=? 8 then 8 else if n <=? 16 then 16 else if n <=? 32 then 32 else 64.
Definition i_bit_andnot_vm (A : arch) (w : ew) (s : rsz) (a m : Z) : res Z :=
  match mk_int A w s with
  | KNull => null_bit_andnot_vm (ut w) 128 a m
  | KBits => match s, w with
             | R512, (W32 | W64) => Ok (mm_maskz_mov (wb w) 512 (mm512_knot m) a)
             | _, _ => Ok (mm_maskz_mov (wb w) (rbits s) (k_not (kbits_of w s) m) a)
             end
  | KVec => let* v := unmask A w s m in i_bit_andnot A w s a v
  end.

(** mask, mask: bit_and.h u8 94-122, u16 183-211, u32 275-303, u64 370-399;
    bit_andnot.h same; bit_or.h / bit_xor.h u8 61-89, u16 117-145, u32 174-203,
    u64 236-265.  k-masks: C operators on the mask type, or the 16-bit
    _mm512_k* functions (which code uses only for at most 16 lanes). *)
Definition mm_ladder (A : arch) (w : ew) (s : rsz)
    (nul : Z -> Z -> Z -> res Z) (kop : Z -> Z -> Z)
    (vop : ew -> Z -> Z -> res Z) (a b : Z) : res Z :=
  match mk_int A w s with
  | KNull => nul (128 / wb w) a b
  | KBits => Ok (kop a b)
  | KVec => let* x := unmask A w s a in let* y := unmask A w s b in
            let* r := vop w x y in i_to_mask A w s r
  end.
Definition i_bit_and_mm A w s :=
  mm_ladder A w s null_bit_and_mm
    (match w with W32 | W64 => mm512_kand | _ => k_and end)
    (fun w => i_bit_and A w s).
Definition i_bit_andnot_mm A w s :=
  mm_ladder A w s null_bit_andnot_mm
    (match s, w with R512, (W32 | W64) => (fun a b => mm512_kandn b a)
     | _, _ => (fun a b => k_andnot (kbits_of w s) b a) end)
    (fun w => i_bit_andnot A w s).
Definition i_bit_or_mm A w s :=
  mm_ladder A w s null_bit_or_mm
    (match s, w with R512, (W32 | W64) => mm512_kor | _, _ => k_or end)
    (fun w => i_bit_or A w s).
Definition i_bit_xor_mm A w s :=
  mm_ladder A w s null_bit_xor_mm
    (match s, w with R512, (W32 | W64) => mm512_kxor | _, _ => k_xor end)
    (fun w => i_bit_xor A w s).

(** bit_not.h masks 146-223 *)
Definition i_bit_not_m (A : arch) (w : ew) (s : rsz) (m : Z) : res Z :=
  match s with
  | R128 => match mk_int A w R128 with
            | KNull => null_bit_not_mm (128 / wb w) m
            | _ => let* v := unmask A w s m in let* r := i_bit_not A w s v in i_to_mask A w s r
            end
  | R256 => match mk_int A w R256 with
            | KBits => Ok (k_not (kbits_of w s) m)
            | _ => i_bit_not A w s m
            end
  | R512 => match w with
            | W8 | W16 => Ok (k_not (kbits_of w s) m)
            | _ => Ok (mm512_knot m)
            end
  end.
