(** Integer comparisons: simdpp/detail/insn/cmp_{eq,neq,lt,gt,le,ge}.h and the wrappers in
    core/cmp_*.h.  Results are masks, stored as [mk_int] says.  [sg] selects the overload on
    signed elements; cmp_eq and cmp_neq have one overload, used for both. *)
From Verif Require Export Model.Shift Base.Vec.

(** SIMDPP_USE_XOP && !SIMDPP_WORKAROUND_XOP_COM *)
Definition xop_com (A : arch) : bool := use_xop A && negb (wa_xop_com A).
Definition sg2 {X} (sg : bool) (s u : X) : X := if sg then s else u.

(** a vector of 32-bit comparison results with each pair of neighbours swapped:
    bit_or(shift_l<32>(r32), shift_r<32>(r32)), cmp_eq.h:205 and cmp_neq.h:197 *)
Definition swap32 (A : arch) (r : Z) : res Z :=
  let* l := i_shift_l_t A W64 R128 32 r in
  let* h := i_shift_r_t A false W64 R128 32 r in
  i_bit_or A W64 R128 l h.

(** cmp_eq.h: u8 31-87, u16 91-126 and 158-180, u32 130-188 (one shape; NULL, AVX512VL, SSE2,
    NEON, ALTIVEC, MSA) *)
Definition i_cmp_eq_d (A : arch) (w : ew) (s : rsz) (a b : Z) : res Z :=
  match s with
  | R128 =>
      if use_null A then null_cmp_eq (ut w) 128 a b
      else if use_avx512vl A then Ok (mm_cmpeq_mask (wb w) 128 a b)
      else if use_sse2 A then Ok (mm_cmpeq (wb w) 128 a b)
      else if use_neon A then Ok (vceqq (wb w) a b)
      else if use_altivec A then Ok (vec_cmpeq (wb w) a b)
      else if use_msa A then Ok (msa_ceq (wb w) a b) else UB
  | R256 => if use_avx2 A then
              if use_avx512vl A then Ok (mm_cmpeq_mask (wb w) 256 a b) else Ok (mm_cmpeq (wb w) 256 a b)
            else NotImpl
  | R512 => if nat512 A w then Ok (mm_cmpeq_mask (wb w) 512 a b) else NotImpl
  end.
(** cmp_eq.h: u64 192-269.  The NEON32 rung's transpose2(r32, r32s) is vtrnq_u32
    (detail/insn/transpose.h, SIMDPP_USE_NEON). *)
Definition i_cmp_eq (A : arch) (w : ew) (s : rsz) (a b : Z) : res Z :=
  match w, s with
  | W64, R128 =>
      if xop_com A then Ok (mm_comeq 64 a b)
      else if use_avx512vl A then Ok (mm_cmpeq_mask 64 128 a b)
      else if use_sse41 A then Ok (mm_cmpeq 64 128 a b)
      else if use_sse2 A then
        let* r32 := i_cmp_eq_d A W32 R128 a b in
        let* r32s := swap32 A r32 in
        i_bit_and A W64 R128 r32 r32s
      else if use_neon64 A then Ok (vceqq 64 a b)
      else if use_neon32 A then
        let* r32 := i_cmp_eq_d A W32 R128 a b in
        i_bit_and A W32 R128 (vtrn 32 128 false r32 r32) (vtrn 32 128 true r32 r32)
      else if use_vsx207 A then Ok (vec_cmpeq 64 a b)
      else if use_msa A then Ok (msa_ceq 64 a b)
      else if use_null A || use_altivec A then null_cmp_eq (ut W64) 128 a b else UB
  | _, _ => i_cmp_eq_d A w s a b
  end.

(** cmp_neq.h: u8 27-79, u16 84-123, u32 135-174, u64 186-242 *)
Definition i_cmp_neq (A : arch) (w : ew) (s : rsz) (a b : Z) : res Z :=
  let via_eq := let* m := i_cmp_eq A w s a b in i_bit_not_m A w s m in
  match s with
  | R128 =>
      match w with
      | W8 => if use_null A then null_cmp_neq (ut w) 128 a b
              else if use_avx512vl A then Ok (mm_cmpneq_mask 8 128 a b)
              else if xop_com A then Ok (mm_comneq 8 a b)
              else via_eq
      | W16 | W32 => if use_null A then null_cmp_neq (ut w) 128 a b
                     else if xop_com A then Ok (mm_comneq (wb w) a b)
                     else via_eq
      | W64 => if xop_com A then Ok (mm_comneq 64 a b)
               else if use_sse41 A || use_neon A || use_vsx207 A || use_msa A then via_eq
               else if use_sse2 A then
                 let* r32 := i_cmp_eq A W32 R128 a b in
                 let* r32s := swap32 A r32 in
                 i_bit_or A W64 R128 r32 r32s
               else if use_null A || use_altivec A then null_cmp_neq (ut w) 128 a b else UB
      end
  | R256 => if use_avx2 A then
              match w with
              | W8 => if use_avx512vl A then Ok (mm_cmpneq_mask 8 256 a b) else via_eq
              | _ => via_eq
              end
            else NotImpl
  | R512 => if nat512 A w then Ok (mm_cmpneq_mask (wb w) 512 a b) else NotImpl
  end.

(** bit_xor(a, 0x80..0) on both operands, then the signed comparison *)
Definition flip2 (A : arch) (w : ew) (s : rsz) (a b : Z) (k : Z -> Z -> Z) : res Z :=
  let* c := konst A w s (2 ^ (wb w - 1)) in
  let* a' := i_bit_xor A w s a c in
  let* b' := i_bit_xor A w s b c in
  Ok (k a' b').

(** cmp_lt.h: i8 28-62, u8 67-109, i16 114-148, u16 153-196, i32 201-236, u32 241-284,
    i64 289-328, u64 333-377 *)
Definition i_cmp_lt (A : arch) (sg : bool) (w : ew) (s : rsz) (a b : Z) : res Z :=
  let B := wb w in
  let null := null_cmp_lt (sg2 sg (st w) (ut w)) 128 a b in
  let vl R := Ok (sg2 sg mm_cmplt_epi_mask mm_cmplt_epu_mask B R a b) in
  match s with
  | R128 =>
      match w with
      | W64 =>
          if xop_com A then Ok (sg2 sg mm_comlt_epi mm_comlt_epu 64 a b)
          else if use_avx512vl A then vl 128
          else if use_avx2 A then
            if sg then Ok (mm_cmpgt 64 128 b a) else flip2 A w R128 a b (fun a b => mm_cmpgt 64 128 b a)
          else if use_neon64 A then Ok (sg2 sg vcltq_s vcltq_u 64 a b)
          else if use_vsx207 A then Ok (sg2 sg vec_cmplt_s vec_cmplt_u 64 a b)
          else if use_msa A then Ok (sg2 sg msa_clt_s msa_clt_u 64 a b)
          else if use_null A || use_altivec A then null else NotImpl
      | _ =>
          if use_null A then null
          else if use_avx512vl A then vl 128
          else if negb sg && xop_com A then Ok (mm_comlt_epu B a b)
          else if use_sse2 A then
            if sg then Ok (mm_cmplt B 128 a b) else flip2 A w R128 a b (mm_cmplt B 128)
          else if use_neon A then Ok (sg2 sg vcltq_s vcltq_u B a b)
          else if use_altivec A then Ok (sg2 sg vec_cmplt_s vec_cmplt_u B a b)
          else if use_msa A then Ok (sg2 sg msa_clt_s msa_clt_u B a b) else UB
      end
  | R256 => if use_avx2 A then
              if use_avx512vl A then vl 256
              else if sg then Ok (mm_cmpgt B 256 b a) else flip2 A w R256 a b (fun a b => mm_cmpgt B 256 b a)
            else NotImpl
  | R512 => if nat512 A w then
              match sg, w with
              | true, W32 => Ok (mm_cmpgt_epi_mask 32 512 b a)
              | _, _ => vl 512
              end
            else NotImpl
  end.

(** cmp_gt.h: i8 31-65, u8 70-112, i16 117-151, u16 156-198, i32 203-238, u32 243-287,
    i64 292-332, u64 337-381 *)
Definition i_cmp_gt (A : arch) (sg : bool) (w : ew) (s : rsz) (a b : Z) : res Z :=
  let B := wb w in
  let null := null_cmp_gt (sg2 sg (st w) (ut w)) 128 a b in
  let vl R := Ok (sg2 sg mm_cmpgt_epi_mask mm_cmpgt_epu_mask B R a b) in
  let direct R := if sg then Ok (mm_cmpgt B R a b) else flip2 A w s a b (mm_cmpgt B R) in
  match s with
  | R128 =>
      match w with
      | W64 =>
          if use_avx512vl A then vl 128
          else if xop_com A then Ok (sg2 sg mm_comgt_epi mm_comgt_epu 64 a b)
          else if use_avx2 A then direct 128
          else if use_neon64 A then Ok (sg2 sg vcgtq_s vcgtq_u 64 a b)
          else if use_vsx207 A then Ok (sg2 sg vec_cmpgt_s vec_cmpgt_u 64 a b)
          else if use_msa A then Ok (sg2 sg msa_clt_s msa_clt_u 64 b a)
          else if use_null A || use_altivec A then null else NotImpl
      | _ =>
          if use_null A then null
          else if use_avx512vl A then vl 128
          else if negb sg && xop_com A then Ok (mm_comgt_epu B a b)
          else if use_sse2 A then direct 128
          else if use_neon A then Ok (sg2 sg vcgtq_s vcgtq_u B a b)
          else if use_altivec A then Ok (sg2 sg vec_cmpgt_s vec_cmpgt_u B a b)
          else if use_msa A then Ok (sg2 sg msa_clt_s msa_clt_u B b a) else UB
      end
  | R256 => if use_avx2 A then if use_avx512vl A then vl 256 else direct 256 else NotImpl
  | R512 => if nat512 A w then
              match sg, w with
              | false, W32 => Ok (mm_cmpnle_epu_mask 32 512 a b)
              | true, W64 => Ok (mm_cmpnle_epi_mask 64 512 a b)
              | false, W64 => Ok (mm_cmpnle_epu_mask 64 512 a b)
              | _, _ => vl 512
              end
            else NotImpl
  end.

(** cmp_le.h: i8 27-58, u8 62-96, i16 100-131, u16 135-169, i32 173-205, u32 209-243,
    i64 247-280, u64 284-317 *)
Definition i_cmp_le (A : arch) (sg : bool) (w : ew) (s : rsz) (a b : Z) : res Z :=
  let B := wb w in
  let null := null_cmp_le (sg2 sg (st w) (ut w)) 128 a b in
  let vl R := Ok (sg2 sg mm_cmple_epi_mask mm_cmple_epu_mask B R a b) in
  let via_gt := let* m := i_cmp_gt A sg w s a b in i_bit_not_m A w s m in
  match s with
  | R128 =>
      match w with
      | W64 =>
          if use_null A then null
          else if use_avx512vl A then vl 128
          else if xop_com A then Ok (sg2 sg mm_comle_epi mm_comle_epu 64 a b)
          else if use_neon64 A then Ok (sg2 sg vcleq_s vcleq_u 64 a b)
          else if use_msa A then Ok (sg2 sg msa_cle_s msa_cle_u 64 a b)
          else via_gt
      | _ =>
          if use_null A then null
          else if use_avx512vl A then vl 128
          else if negb sg && xop_com A then Ok (mm_comle_epu B a b)
          else if use_neon A then Ok (sg2 sg vcleq_s vcleq_u B a b)
          else if use_msa A then Ok (sg2 sg msa_cle_s msa_cle_u B a b)
          else via_gt
      end
  | R256 => if use_avx2 A then if use_avx512vl A then vl 256 else via_gt else NotImpl
  | R512 => if nat512 A w then vl 512 else NotImpl
  end.

(** cmp_ge.h: i8 27-58, u8 62-96, i16 100-131, u16 135-169, i32 173-204, u32 208-243,
    i64 247-281, u64 285-318 *)
Definition i_cmp_ge (A : arch) (sg : bool) (w : ew) (s : rsz) (a b : Z) : res Z :=
  let B := wb w in
  let null := null_cmp_ge (sg2 sg (st w) (ut w)) 128 a b in
  let vl R := Ok (sg2 sg mm_cmpge_epi_mask mm_cmpge_epu_mask B R a b) in
  let via_lt := let* m := i_cmp_lt A sg w s a b in i_bit_not_m A w s m in
  match s with
  | R128 =>
      match w with
      | W64 =>
          if use_avx512vl A then vl 128
          else if xop_com A then Ok (sg2 sg mm_comge_epi mm_comge_epu 64 a b)
          else if use_neon64 A then Ok (sg2 sg vcgeq_s vcgeq_u 64 a b)
          else if use_msa A then Ok (sg2 sg msa_cle_s msa_cle_u 64 b a)
          else if use_null A then null
          else via_lt
      | _ =>
          if use_null A then null
          else if use_avx512vl A then vl 128
          else if negb sg && xop_com A then Ok (mm_comge_epu B a b)
          else if use_neon A then Ok (sg2 sg vcgeq_s vcgeq_u B a b)
          else if use_msa A then Ok (sg2 sg msa_cle_s msa_cle_u B b a)
          else via_lt
      end
  | R256 => if use_avx2 A then if use_avx512vl A then vl 256 else via_lt else NotImpl
  | R512 => if nat512 A w then
              match sg, w with
              | false, W32 => Ok (mm_cmpnlt_epu_mask 32 512 a b)
              | true, W64 => Ok (mm_cmpnlt_epi_mask 64 512 a b)
              | false, W64 => Ok (mm_cmpnlt_epu_mask 64 512 a b)
              | _, _ => vl 512
              end
            else NotImpl
  end.

(** cmp_eq / cmp_neq of two masks.  Only the overloads under AVX512VL (128, 256 bits) and for
    512-bit registers are modelled; elsewhere the call resolves to the generic template, which
    calls itself.  All use the 16-bit _mm512_kxnor / _mm512_kxor, whatever the lane count.
    cmp_eq.h: mask_int8<16> 49-55, <32> 69-75, <64> 83-86, mask_int16<8> 148-154,
    <16> 168-174, mask_int32<16> 184-187, mask_int64<2> 229-235, <4> 249-255, <8> 265-268;
    there is none for int16<32>, int32<4>, int32<8> (NotImpl). *)
Definition mask_cmp_here (A : arch) (w : ew) (s : rsz) : bool :=
  match s with R512 => nat512 A w | _ => use_avx512vl A end.
Definition mm512_kxnor (a b : Z) : Z := wrap 16 (Z.lnot (Z.lxor a b)).
Definition i_cmp_eq_mm (A : arch) (w : ew) (s : rsz) (a b : Z) : res Z :=
  match w, s with
  | W16, R512 | W32, R128 | W32, R256 => NotImpl
  | _, _ => if mask_cmp_here A w s then Ok (mm512_kxnor a b) else NotImpl
  end.
(** cmp_neq.h: int8<16> 41-47, <32> 61-67, <64> 75-78, int16<8> 95-101, <16> 111-117,
    <32> 126-129, int32<4> 146-152, <8> 162-168, <16> 178-181, int64<2> 206-212,
    <4> 222-228, <8> 238-241 *)
Definition i_cmp_neq_mm (A : arch) (w : ew) (s : rsz) (a b : Z) : res Z :=
  if mask_cmp_here A w s then Ok (mm512_kxor a b) else NotImpl.

(** Public API (core/cmp_*.h): every register of the vectors
    (SIMDPP_VEC_ARRAY_IMPL2 trailers, e.g. cmp_lt.h:500-505).  The overloads with a scalar
    operand (core/detail/scalar_arg_impl.h) splat it first. *)
Definition cmp_eq A w s := vec_impl2 (i_cmp_eq A w s).
Definition cmp_neq A w s := vec_impl2 (i_cmp_neq A w s).
Definition cmp_lt A sg w s := vec_impl2 (i_cmp_lt A sg w s).
Definition cmp_gt A sg w s := vec_impl2 (i_cmp_gt A sg w s).
Definition cmp_le A sg w s := vec_impl2 (i_cmp_le A sg w s).
Definition cmp_ge A sg w s := vec_impl2 (i_cmp_ge A sg w s).
Definition cmp_eq_mm A w s := vec_impl2 (i_cmp_eq_mm A w s).
Definition cmp_neq_mm A w s := vec_impl2 (i_cmp_neq_mm A w s).
