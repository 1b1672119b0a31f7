(** Shifts by a vector of counts: detail/insn/i_shift_l_v.h, i_shift_r_v.h, core/i_shift_l.h:112-202,
    core/i_shift_r.h (the overloads with a count vector), capabilities.h:74-116. *)
From Verif Require Export Model.Shift Model.Bytes Model.Mul Model.Cmp Model.Blend Model.Arith.

(** PSLLD and others with the count in the low quadword of a register *)
Definition low_count (c : Z) : Z := lane 64 0 c.
(** capabilities.h:74-92 SIMDPP_HAS_(U)INT*_SHIFT_L_BY_VECTOR *)
Definition byte_shifts (A : arch) : bool := use_null A || use_ssse3 A || use_neon A || use_altivec A || use_msa A.
Definition has_shift_l_v (A : arch) (w : ew) : bool :=
  match w with
  | W8 | W16 => byte_shifts A
  | W32 => use_null A || use_sse2 A || use_neon A || use_altivec A || use_msa A
  | W64 => false
  end.
(** capabilities.h:94-116 SIMDPP_HAS_(U)INT*_SHIFT_R_BY_VECTOR *)
Definition has_shift_r_v (A : arch) (sg : bool) (w : ew) : bool :=
  match w with
  | W8 => byte_shifts A
  | W16 => if sg then use_null A || use_avx512bw A || use_neon A || use_altivec A || use_msa A else byte_shifts A
  | W32 => use_null A || use_sse2 A || use_neon A || use_altivec A || use_msa A
  | W64 => false
  end.
(** i_shift_l_v.h:59-60, 135-138 *)
Definition tbl_l8 : list Z := [0x01; 0x02; 0x04; 0x08; 0x10; 0x20; 0x40; 0x80].
Definition tbl_l16 : list Z := [0x01; 0x02; 0x04; 0x08; 0x10; 0x20; 0x40; 0x80; 0; 0; 0; 0; 0; 0; 0; 0].
(** i_shift_r_v.h:61-64 (= 167-170), 254-257 *)
Definition tbl_r8 : list Z := [0x80; 0x40; 0x20; 0x10; 0x08; 0x04; 0x02; 0x01; 0; 0; 0; 0; 0; 0; 0; 0].
Definition tbl_r16 : list Z := [0x00; 0x80; 0x40; 0x20; 0x10; 0x08; 0x04; 0x02; 0x01; 0; 0; 0; 0; 0; 0; 0].

Section R.
  Variables (A : arch) (s : rsz).
  Notation and16 := (i_bit_and A W16 s).
  Notation andnot16 := (i_bit_andnot A W16 s).
  Notation or16 := (i_bit_or A W16 s).
  Notation shl16 := (i_shift_l_t A W16 s).
  Notation shr16 := (i_shift_r_t A false W16 s).
  (** the common part of the ladders: the 128-bit backends other than x86; vshlq takes a signed count, negated for right
      shifts (i_neg); x86 is the caller's *)
  Definition sv_ladder (null x86 : res Z) (vshl : Z -> Z) (right : bool) (w : ew) (count vec msa : Z) : res Z :=
    if use_null A then null
    else if use_sse2 A then x86
    else if use_neon A then
      if right then let* q := i_neg A w R128 count in Ok (vshl q) else Ok (vshl count)
    else if use_altivec A then Ok vec
    else if use_msa A then Ok msa
    else UB.

  (** ---------- i_shift_l_v.h ---------- *)
  (** 126-146 *)
  Definition shl16_mul (a count : Z) : res Z :=
    let* mask := i_make_const A W8 s tbl_l16 0 in
    let* c8 := shl16 8 count in let* qcount := or16 count c8 in
    let* t := konst A W16 s 0x0800 in let* qcount := i_bit_xor A W16 s qcount t in
    let* mulshift := i_permute_bytes16 A s mask qcount in
    i_mul_lo16 A s a mulshift.
  (** 149-185 *)
  Definition i_shift_l_v16 (a c : Z) : res Z :=
    match s with
    | R128 => sv_ladder (null_shift_l_v (ut W16) (ut W16) 128 a c)
                (if use_avx512bw A && use_avx512vl A then Ok (mm_sllv 16 128 a c)
                 else if use_ssse3 A then shl16_mul a c else NotImpl)
                (vshlq_u 16 a) false W16 c (vec_sl 16 a c) (msa_sll 16 a c)
    | R256 => if use_avx2 A then
                if use_avx512bw A && use_avx512vl A then Ok (mm_sllv 16 256 a c) else shl16_mul a c
              else NotImpl
    | R512 => if use_avx512bw A then Ok (mm_sllv 16 512 a c) else NotImpl
    end.
  (** 30-48 *)
  Definition shl8_v16 (a count : Z) : res Z :=
    let* mask := konst A W16 s 0xff00 in
    let* a_hi := and16 a mask in
    let* c_lo := andnot16 count mask in
    let* c_hi := shr16 8 count in
    let* a_lo := i_shift_l_v16 a c_lo in
    let* a_hi := i_shift_l_v16 a_hi c_hi in
    let* a_lo := andnot16 a_lo mask in
    or16 a_lo a_hi.
  (** 52-81 *)
  Definition shl8_mul (a count : Z) : res Z :=
    let* mask := i_make_const A W8 s tbl_l8 0 in
    let* mulshift := i_permute_bytes16 A s mask count in
    let* sel := konst A W16 s 0x00ff in
    let* a_lo := shl16 8 a in
    let* m_lo := and16 mulshift sel in
    let* a_hi := andnot16 a sel in
    let* m_hi := shr16 8 mulshift in
    let* a_lo := i_mul_lo16 A s a_lo m_lo in
    let* a_hi := i_mul_lo16 A s a_hi m_hi in
    let* a_lo := shr16 8 a_lo in
    or16 a_lo a_hi.
  (** 84-121 *)
  Definition i_shift_l_v8 (a c : Z) : res Z :=
    match s with
    | R128 => sv_ladder (null_shift_l_v (ut W8) (ut W8) 128 a c)
                (if use_avx512bw A && use_avx512vl A then shl8_v16 a c
                 else if use_ssse3 A then shl8_mul a c else NotImpl)
                (vshlq_u 8 a) false W8 c (vec_sl 8 a c) (msa_sll 8 a c)
    | R256 => if use_avx2 A then if use_avx512bw A && use_avx512vl A then shl8_v16 a c else shl8_mul a c else NotImpl
    | R512 => if use_avx512bw A then shl8_v16 a c else NotImpl
    end.
  (** four shifts of the whole vector, one lane kept of each: 197-227 (= i_shift_r_v.h:372-402, 439-469) *)
  Definition four_shifts (sh : Z -> Z -> Z) (a count : Z) : res Z :=
    let* count0 := if use_sse41 A then Ok (mm_blend_epi16 128 0xcc count 0)
                   else let* mask := i_make_const A W32 R128 [0xffffffff; 0; 0xffffffff; 0] 0 in
                        i_bit_and A W32 R128 count mask in
    let count1 := mm_srl 64 128 count 32 in
    let count2 := mm_bsrli 128 8 count0 in
    let count3 := mm_bsrli 128 12 count in
    let a0 := sh a (low_count count0) in let a1 := sh a (low_count count1) in
    let a2 := sh a (low_count count2) in let a3 := sh a (low_count count3) in
    Ok (if use_sse41 A then
          let a0 := mm_blend_epi16 128 0x0c a0 a1 in
          let a2 := mm_blend_epi16 128 0xc0 a2 a3 in
          mm_blend_epi16 128 0xf0 a0 a2
        else
          let f0 := mm_shuffle_ps 128 (mask_4x4 0 0 1 1) a0 a1 in
          let f1 := mm_shuffle_ps 128 (mask_4x4 2 2 3 3) a2 a3 in
          mm_shuffle_ps 128 (mask_4x4 0 2 0 2) f0 f1).
  (** 190-250 *)
  Definition i_shift_l_v32 (a c : Z) : res Z :=
    match s with
    | R128 => sv_ladder (null_shift_l_v (ut W32) (ut W32) 128 a c)
                (if use_avx2 A then Ok (mm_sllv 32 128 a c) else four_shifts (mm_sll 32 128) a c)
                (vshlq_u 32 a) false W32 c (vec_sl 32 a c) (msa_sll 32 a c)
    | R256 => if use_avx2 A then Ok (mm_sllv 32 256 a c) else NotImpl
    | R512 => if use_avx512f A then Ok (mm_sllv 32 512 a c) else NotImpl
    end.

  (** ---------- i_shift_r_v.h ---------- *)
  (** 241-272 *)
  Definition shr16_mul (a count : Z) : res Z :=
    let* z := konst A W16 s 0 in let* is_same := i_cmp_eq A W16 s count z in
    let* k15 := konst A W16 s 15 in let* is_zero := i_cmp_gt A false W16 s count k15 in
    let* mask := i_make_const A W8 s tbl_r16 0 in
    let* c8 := shl16 8 count in let* qcount := or16 count c8 in
    let* t := konst A W16 s 0x0008 in let* qcount := i_bit_xor A W16 s qcount t in
    let* mulshift := i_permute_bytes16 A s mask qcount in
    let* res := i_mul_hi A false s a mulshift in
    let* res := i_blend_m A W16 s a res is_same in
    i_bit_andnot_vm A W16 s res is_zero.
  (** 275-312 *)
  Definition i_shift_r_v_u16 (a c : Z) : res Z :=
    match s with
    | R128 => sv_ladder (null_shift_r_v (ut W16) (ut W16) 128 a c)
                (if use_avx512bw A && use_avx512vl A then Ok (mm_srlv 16 128 a c)
                 else if use_ssse3 A then shr16_mul a c else NotImpl)
                (vshlq_u 16 a) true W16 c (vec_sr 16 a c) (msa_srl 16 a c)
    | R256 => if use_avx2 A then
                if use_avx512bw A && use_avx512vl A then Ok (mm_srlv 16 256 a c) else shr16_mul a c
              else NotImpl
    | R512 => if use_avx512bw A then Ok (mm_srlv 16 512 a c) else NotImpl
    end.
  (** 317-360; the casts to 512 bits leave the upper part undefined: the lanes that are cast back do not depend on it
      (here it is zero) *)
  Definition i_shift_r_v_i16 (a c : Z) : res Z :=
    match s with
    | R128 => sv_ladder (null_shift_r_v (st W16) (ut W16) 128 a c)
                (if use_avx512bw A && use_avx512vl A then Ok (mm_srav 16 128 a c)
                 else if use_avx512bw A then Ok (lane 128 0 (mm_srav 16 512 a c)) else NotImpl)
                (vshlq_s 16 a) true W16 c (vec_sra 16 a c) (msa_sra 16 a c)
    | R256 => if use_avx2 A then
                if use_avx512bw A && use_avx512vl A then Ok (mm_srav 16 256 a c)
                else if use_avx512bw A then Ok (lane 256 0 (mm_srav 16 512 a c)) else NotImpl
              else NotImpl
    | R512 => if use_avx512bw A then Ok (mm_srav 16 512 a c) else NotImpl
    end.
  (** 31-49 *)
  Definition shr8_v16_u (a count : Z) : res Z :=
    let* mask := konst A W16 s 0x00ff in
    let* a_lo := and16 a mask in
    let* c_lo := and16 count mask in
    let* c_hi := shr16 8 count in
    let* a_lo := i_shift_r_v_u16 a_lo c_lo in
    let* a_hi := i_shift_r_v_u16 a c_hi in
    let* a_hi := andnot16 a_hi mask in
    or16 a_lo a_hi.
  (** 53-87 *)
  Definition shr8_mul_u (a count : Z) : res Z :=
    let* mask := i_make_const A W8 s tbl_r8 0 in
    let* mulshift := i_permute_bytes16 A s mask count in
    let* sel := konst A W16 s 0x00ff in
    let* a_lo := shl16 8 a in
    let* m_lo := and16 mulshift sel in
    let* m_lo := shl16 1 m_lo in
    let* a_hi := andnot16 a sel in
    let* m_hi := shr16 8 mulshift in let* m_hi := shl16 1 m_hi in
    let* a_lo := i_mul_hi A false s a_lo m_lo in
    let* a_hi := i_mul_hi A false s a_hi m_hi in
    let* a_hi := shl16 8 a_hi in
    or16 a_lo a_hi.
  (** 90-128 *)
  Definition i_shift_r_v_u8 (a c : Z) : res Z :=
    match s with
    | R128 => sv_ladder (null_shift_r_v (ut W8) (ut W8) 128 a c)
                (if use_avx512bw A && use_avx512vl A then shr8_v16_u a c
                 else if use_ssse3 A then shr8_mul_u a c else NotImpl)
                (vshlq_u 8 a) true W8 c (vec_sr 8 a c) (msa_srl 8 a c)
    | R256 => if use_avx2 A then if use_avx512bw A && use_avx512vl A then shr8_v16_u a c else shr8_mul_u a c else NotImpl
    | R512 => if use_avx512bw A then shr8_v16_u a c else NotImpl
    end.
  (** 134-155 *)
  Definition shr8_v16_s (a count : Z) : res Z :=
    let* mask := konst A W16 s 0x00ff in
    let* a_lo := shl16 8 a in
    let* c_lo := and16 count mask in
    let* c_hi := shr16 8 count in
    let* a_lo := i_shift_r_v_i16 a_lo c_lo in
    let* a_hi := i_shift_r_v_i16 a c_hi in
    let* a_lo := shr16 8 a_lo in
    let* a_hi := andnot16 a_hi mask in
    or16 a_lo a_hi.
  (** 158-194 *)
  Definition shr8_mul_s (a count : Z) : res Z :=
    let* mask := i_make_const A W8 s tbl_r8 0 in
    let* mulshift := i_permute_bytes16 A s mask count in
    let* sel := konst A W16 s 0x00ff in
    let* a_lo := shl16 8 a in
    let* m_lo := and16 mulshift sel in
    let* m_lo := shl16 1 m_lo in
    let* a_hi := andnot16 a sel in
    let* m_hi := shr16 8 mulshift in let* m_hi := shl16 1 m_hi in
    let* a_lo := i_mul_hi A true s a_lo m_lo in
    let* a_hi := i_mul_hi A true s a_hi m_hi in
    let* a_hi := shl16 8 a_hi in
    let* a_lo := and16 a_lo sel in
    or16 a_lo a_hi.
  (** 197-235 *)
  Definition i_shift_r_v_i8 (a c : Z) : res Z :=
    match s with
    | R128 => sv_ladder (null_shift_r_v (st W8) (ut W8) 128 a c)
                (if use_avx512bw A && use_avx512vl A then shr8_v16_s a c
                 else if use_ssse3 A then shr8_mul_s a c else NotImpl)
                (vshlq_s 8 a) true W8 c (vec_sra 8 a c) (msa_sra 8 a c)
    | R256 => if use_avx2 A then if use_avx512bw A && use_avx512vl A then shr8_v16_s a c else shr8_mul_s a c else NotImpl
    | R512 => if use_avx512bw A then shr8_v16_s a c else NotImpl
    end.
  (** 365-427 *)
  Definition i_shift_r_v_u32 (a c : Z) : res Z :=
    match s with
    | R128 => sv_ladder (null_shift_r_v (ut W32) (ut W32) 128 a c)
                (if use_avx2 A then Ok (mm_srlv 32 128 a c) else four_shifts (mm_srl 32 128) a c)
                (vshlq_u 32 a) true W32 c (vec_sr 32 a c) (msa_srl 32 a c)
    | R256 => if use_avx2 A then Ok (mm_srlv 32 256 a c) else NotImpl
    | R512 => if use_avx512f A then Ok (mm_srlv 32 512 a c) else NotImpl
    end.
  (** 432-494 *)
  Definition i_shift_r_v_i32 (a c : Z) : res Z :=
    match s with
    | R128 => sv_ladder (null_shift_r_v (st W32) (ut W32) 128 a c)
                (if use_avx2 A then Ok (mm_srav 32 128 a c) else four_shifts (mm_sra 32 128) a c)
                (vshlq_s 32 a) true W32 c (vec_sra 32 a c) (msa_sra 32 a c)
    | R256 => if use_avx2 A then Ok (mm_srav 32 256 a c) else NotImpl
    | R512 => if use_avx512f A then Ok (mm_srav 32 512 a c) else NotImpl
    end.

  Definition i_shift_l_v (w : ew) : Z -> Z -> res Z :=
    match w with W8 => i_shift_l_v8 | W16 => i_shift_l_v16 | W32 => i_shift_l_v32 | W64 => fun _ _ => NotImpl end.
  Definition i_shift_r_v (sg : bool) (w : ew) : Z -> Z -> res Z :=
    match w, sg with
    | W8, false => i_shift_r_v_u8 | W8, true => i_shift_r_v_i8
    | W16, false => i_shift_r_v_u16 | W16, true => i_shift_r_v_i16
    | W32, false => i_shift_r_v_u32 | W32, true => i_shift_r_v_i32
    | W64, _ => fun _ _ => NotImpl
    end.
  (** core/i_shift_l.h:123-202: the overloads for signed vectors convert to unsigned and back; the trailer
      i_shift_l_v.h:254-258.  No 64-bit overload exists. *)
  Definition shift_l_v (w : ew) (va vc : vec) : res vec :=
    if has_shift_l_v A w then vec_impl2 (i_shift_l_v w) va vc else NotImpl.
  (** core/i_shift_r.h; the trailer i_shift_r_v.h:498-502 *)
  Definition shift_r_v (sg : bool) (w : ew) (va vc : vec) : res vec :=
    if has_shift_r_v A sg w then vec_impl2 (i_shift_r_v sg w) va vc else NotImpl.
End R.
