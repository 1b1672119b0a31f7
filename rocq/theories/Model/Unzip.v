(** unzip16_lo .. unzip2_hi and align16 .. align2:
    simdpp/detail/insn/{unzip_lo,unzip_hi,align}.h, simdpp/core/{unzip_lo,unzip_hi,align}.h. *)
From Verif Require Export Model.Shuf2x2.

(** detail/null/shuffle.h:77-98 (unzip_lo_impl, unzip_hi_impl): element copies *)
Definition null_unzip (w : Z) (hi : bool) (a b : Z) : Z :=
  lsh w 128 (128 / w) (fun k => let half := 128 / w / 2 in let o := if hi then 1 else 0 in
    if k <? half then fromA (k * 2 + o) else fromB ((k - half) * 2 + o)) [a; b].
(** the x86 code: mask = make_ones() >> w in lanes of 2w bits, and, pack with unsigned
    saturation: unzip_lo.h:34-40, 62-68, 76-82, 101-107, 136-142, 150-156 *)
Definition sse_unzip_lo (w R a b : Z) : Z :=
  let mask := mm_srl (2 * w) R (ones R) w in mm_packus w R (Z.land a mask) (Z.land b mask).
(** unzip_lo.h:109-115 *)
Definition sse2_unzip8_lo (a b : Z) : Z :=
  mm_packs 16 128 (mm_sra 32 128 (mm_sll 32 128 a 16) 16) (mm_sra 32 128 (mm_sll 32 128 b 16) 16).
(** unzip_hi.h:32-35, 57-60, 68-71, 90-93, 113-116, 124-127 *)
Definition sse_unzip_hi (w R a b : Z) : Z :=
  mm_packs w R (mm_sra (2 * w) R a w) (mm_sra (2 * w) R b w).

(** unzip_lo.h: u8 28-84 *)
Definition i_unzip16_lo (A : arch) (s : rsz) (a b : Z) : res Z :=
  match s with
  | R128 =>
      if use_null A then Ok (null_unzip 8 false a b)
      else if use_sse2 A then Ok (sse_unzip_lo 8 128 a b)
      else if use_neon A then Ok (vuzp 8 128 false a b)
      else if use_altivec A then Ok (vec_pack 8 a b)
      else if use_msa A then Ok (msa_pckev 8 b a) else UB
  | R256 => if use_avx2 A then Ok (sse_unzip_lo 8 256 a b) else NotImpl
  | R512 => if use_avx512bw A then Ok (sse_unzip_lo 8 512 a b) else NotImpl
  end.
(** unzip_lo.h: u16 95-158 *)
Definition i_unzip8_lo (A : arch) (s : rsz) (a b : Z) : res Z :=
  match s with
  | R128 =>
      if use_null A then Ok (null_unzip 16 false a b)
      else if use_sse41 A then Ok (sse_unzip_lo 16 128 a b)
      else if use_sse2 A then Ok (sse2_unzip8_lo a b)
      else if use_neon A then Ok (vuzp 16 128 false a b)
      else if use_altivec A then Ok (vec_pack 16 a b)
      else if use_msa A then Ok (msa_pckev 16 b a) else UB
  | R256 => if use_avx2 A then Ok (sse_unzip_lo 16 256 a b) else NotImpl
  | R512 => if use_avx512bw A then Ok (sse_unzip_lo 16 512 a b) else NotImpl
  end.
(** unzip_lo.h: u32 169-199, f32 218-248 *)
Definition i_unzip4_lo (A : arch) (e : et) (s : rsz) (a b : Z) : res Z :=
  match s with
  | R128 =>
      if use_null A || (match e with F32 => use_neon_no_flt_sp A | _ => false end) then Ok (null_unzip 32 false a b)
      else if use_sse2 A then i_shuffle2 A e R128 0 2 0 2 a b
      else if use_neon A then Ok (vuzp 32 128 false a b)
      else if use_altivec A then shuffle_mask A R128 4 [0; 2; 4; 6] a b
      else if use_msa A then Ok (msa_pckev 32 b a) else UB
  | R256 => if (match e with F32 => use_avx A | _ => use_avx2 A end) then i_shuffle2 A e R256 0 2 0 2 a b else NotImpl
  | R512 => if use_avx512f A then i_shuffle2 A e R512 0 2 0 2 a b else NotImpl
  end.
(** unzip_hi.h: u8 26-73 *)
Definition i_unzip16_hi (A : arch) (s : rsz) (a b : Z) : res Z :=
  match s with
  | R128 =>
      if use_null A then Ok (null_unzip 8 true a b)
      else if use_sse2 A then Ok (sse_unzip_hi 8 128 a b)
      else if use_neon A then Ok (vuzp 8 128 true a b)
      else if use_altivec A then shuffle_mask A R128 1 [1; 3; 5; 7; 9; 11; 13; 15; 17; 19; 21; 23; 25; 27; 29; 31] a b
      else if use_msa A then Ok (msa_pckod 8 b a) else UB
  | R256 => if use_avx2 A then Ok (sse_unzip_hi 8 256 a b) else NotImpl
  | R512 => if use_avx512bw A then Ok (sse_unzip_hi 8 512 a b) else NotImpl
  end.
(** unzip_hi.h: u16 84-129 *)
Definition i_unzip8_hi (A : arch) (s : rsz) (a b : Z) : res Z :=
  match s with
  | R128 =>
      if use_null A then Ok (null_unzip 16 true a b)
      else if use_sse2 A then Ok (sse_unzip_hi 16 128 a b)
      else if use_neon A then Ok (vuzp 16 128 true a b)
      else if use_altivec A then shuffle_mask A R128 2 [1; 3; 5; 7; 9; 11; 13; 15] a b
      else if use_msa A then Ok (msa_pckod 16 b a) else UB
  | R256 => if use_avx2 A then Ok (sse_unzip_hi 16 256 a b) else NotImpl
  | R512 => if use_avx512bw A then Ok (sse_unzip_hi 16 512 a b) else NotImpl
  end.
(** unzip_hi.h: u32 140-167, f32 186-215 (AltiVec: through uint32) *)
Definition i_unzip4_hi (A : arch) (e : et) (s : rsz) (a b : Z) : res Z :=
  match s with
  | R128 =>
      if use_null A || (match e with F32 => use_neon_no_flt_sp A | _ => false end) then Ok (null_unzip 32 true a b)
      else if use_sse2 A then i_shuffle2 A e R128 1 3 1 3 a b
      else if use_altivec A then i_shuffle2 A I32 R128 1 3 1 3 a b
      else if use_neon A then Ok (vuzp 32 128 true a b)
      else if use_msa A then Ok (msa_pckod 32 b a) else UB
  | R256 => if (match e with F32 => use_avx A | _ => use_avx2 A end) then i_shuffle2 A e R256 1 3 1 3 a b else NotImpl
  | R512 => if use_avx512f A then i_shuffle2 A e R512 1 3 1 3 a b else NotImpl
  end.
(** 64-bit lanes: unzip_lo.h:209-213, 258-262; unzip_hi.h:177-181, 225-229 *)
Definition i_unzip_lo (A : arch) (e : et) (s : rsz) (a b : Z) : res Z :=
  match e with
  | I8 => i_unzip16_lo A s a b | I16 => i_unzip8_lo A s a b
  | I32 | F32 => i_unzip4_lo A e s a b | I64 | F64 => i_zip A e s false a b end.
Definition i_unzip_hi (A : arch) (e : et) (s : rsz) (a b : Z) : res Z :=
  match e with
  | I8 => i_unzip16_hi A s a b | I16 => i_unzip8_hi A s a b
  | I32 | F32 => i_unzip4_hi A e s a b | I64 | F64 => i_zip A e s true a b end.

(** ------------------------------ align ------------------------------ *)
(** the scalar loops: align.h:38-43, 97-102, 140-145, 235-240, 283-288, 396-401 *)
Definition null_align (w sh a b : Z) : Z :=
  let n := 128 / w in
  lsh w 128 n (fun i => if i <? n - sh then fromA (i + sh) else fromB (i - n + sh)) [a; b].
(** i_align16: 31-81.  a is `lower', b is `upper'. *)
Definition i_align16 (A : arch) (s : rsz) (sh a b : Z) : res Z :=
  match s with
  | R128 =>
      if use_null A then Ok (null_align 8 sh a b)
      else if use_ssse3 A then Ok (mm_alignr 128 sh b a)
      else if use_sse2 A then
        let* lo := i_move_l_wrapper A I8 R128 sh a in
        let* up := i_move_r_wrapper A I8 R128 (16 - sh) b in Ok (Z.lor up lo)
      else if use_neon A then
        Ok (if sh =? 0 then a else if sh =? 16 then b else vext 8 128 (sh mod 16) a b)
      else if use_altivec A then Ok (vec_sld_biendian sh a b)
      else if use_msa A then Ok (msa_sld b a sh) else UB
  | R256 => if use_avx2 A then Ok (mm_alignr 256 sh b a) else NotImpl
  | R512 => if use_avx512bw A then Ok (mm_alignr 512 sh b a) else NotImpl
  end.
(** i_align8: 91-124 *)
Definition i_align8 (A : arch) (s : rsz) (sh a b : Z) : res Z :=
  match s with
  | R128 => if use_null A then Ok (null_align 16 sh a b) else i_align16 A R128 (sh * 2) a b
  | R256 => if use_avx2 A then Ok (mm_alignr 256 (sh * 2) b a) else NotImpl
  | R512 => if use_avx512bw A then Ok (mm_alignr 512 (sh * 2) b a) else NotImpl
  end.
(** i_align4, uint32: 134-201 *)
Definition i_align4 (A : arch) (s : rsz) (sh a b : Z) : res Z :=
  match s with
  | R128 =>
      if use_null A then Ok (null_align 32 sh a b)
      else if use_sse2 A then
        if (sh =? 1) || (sh =? 2) || (sh =? 3) then
          if use_ssse3 A then Ok (mm_alignr 128 (sh * 4) b a)
          else if sh =? 2 then Ok (mm_shuffle_ps 128 (mask_4x4 2 3 0 1) a b)
          else let* lo := i_move_l_wrapper A I32 R128 sh a in
               let* up := i_move_r_wrapper A I32 R128 (4 - sh) b in Ok (Z.lor lo up)
        else Ok (if sh =? 4 then b else a)
      else if use_neon A then
        Ok (if sh =? 0 then a else if sh =? 4 then b else vext 32 128 sh a b)
      else if use_altivec A then Ok (vec_sld_biendian (sh * 4) a b)
      else if use_msa A then Ok (msa_sld b a (sh * 4)) else UB
  | R256 => if use_avx2 A then Ok (mm_alignr 256 (sh * 4) b a) else NotImpl
  | R512 => if use_avx512f A then
      if sh =? 1 then i_shuffle4x2 A I32 R512 1 2 3 4 a b
      else if sh =? 2 then i_shuffle4x2 A I32 R512 2 3 4 5 a b
      else if sh =? 3 then i_shuffle4x2 A I32 R512 3 4 5 6 a b
      else Ok (if sh =? 4 then b else a) else NotImpl
  end.
(** i_align2, uint64: 211-267 *)
Definition i_align2 (A : arch) (s : rsz) (sh a b : Z) : res Z :=
  match s with
  | R128 =>
      if use_sse2 A then
        Ok (if sh =? 1 then mm_shuffle_pd 128 (mask_2x2 1 0) a b else if sh =? 2 then b else a)
      else if use_neon A then
        Ok (if sh =? 0 then a else if sh =? 2 then b else vext 64 128 (sh mod 2) a b)
      else if use_vsx207 A then Ok (vec_sld_biendian (sh * 8) a b)
      else if use_null A || use_altivec A then Ok (null_align 64 sh a b)
      else if use_msa A then Ok (msa_sld b a (sh * 8)) else UB
  | R256 => if use_avx2 A then Ok (mm_alignr 256 (sh * 8) b a) else NotImpl
  | R512 => if use_avx512f A then
      if sh =? 1 then i_shuffle2x2 A I64 R512 1 2 a b else Ok (if sh =? 2 then b else a) else NotImpl
  end.
(** i_align4, float32: 277-363 *)
Definition i_align4f (A : arch) (s : rsz) (sh a b : Z) : res Z :=
  match s with
  | R128 =>
      if use_null A || use_neon_no_flt_sp A then Ok (null_align 32 sh a b)
      else if use_sse2 A then
        if (sh =? 1) || (sh =? 3) then
          if use_ssse3 A then Ok (mm_alignr 128 (sh * 4) b a)
          else let* lo := i_move_l_wrapper A F32 R128 sh a in
               let* up := i_move_r_wrapper A F32 R128 (4 - sh) b in Ok (Z.lor lo up)
        else Ok (if sh =? 2 then mm_shuffle_ps 128 (mask_4x4 2 3 0 1) a b else if sh =? 4 then b else a)
      else if use_neon_flt_sp A then
        Ok (if sh =? 0 then a else if sh =? 4 then b else vext 32 128 sh a b)
      else if use_altivec A then Ok (vec_sld_biendian (sh * 4) a b)
      else if use_msa A then Ok (msa_sld b a (sh * 4)) else UB
  | R256 => if use_avx A then
      if (sh =? 1) || (sh =? 3) then
        if use_avx2 A then Ok (mm_alignr 256 (sh * 4) b a)
        else if sh =? 1 then i_shuffle4x2 A F32 R256 1 2 3 4 a b
        else i_shuffle4x2 A F32 R256 3 4 5 6 a b
      else Ok (if sh =? 2 then mm_shuffle_ps 256 (mask_4x4 2 3 0 1) a b else if sh =? 4 then b else a)
      else NotImpl
  | R512 => if use_avx512f A then
      if sh =? 1 then i_shuffle4x2 A F32 R512 1 2 3 4 a b
      else if sh =? 3 then i_shuffle4x2 A F32 R512 3 4 5 6 a b
      else Ok (if sh =? 2 then mm_shuffle_ps 512 (mask_4x4 2 3 0 1) a b else if sh =? 4 then b else a)
      else NotImpl
  end.
(** i_align2, float64: 373-437 *)
Definition i_align2f (A : arch) (s : rsz) (sh a b : Z) : res Z :=
  match s with
  | R128 =>
      if use_sse2 A then
        Ok (if sh =? 1 then mm_shuffle_pd 128 (mask_2x2 1 0) a b else if sh =? 2 then b else a)
      else if use_neon64 A then
        Ok (if sh =? 0 then a else if sh =? 2 then b else vext 64 128 sh a b)
      else if use_vsx206 A then Ok (vec_sld_biendian (sh * 8) a b)
      else if use_null A || use_altivec A || use_neon32 A then Ok (null_align 64 sh a b)
      else if use_msa A then Ok (msa_sld b a (sh * 8)) else NotImpl
  | R256 => if use_avx A then
      Ok (if sh =? 1 then mm_shuffle_pd 256 (mask_2x2_2 1 0) a b else if sh =? 2 then b else a) else NotImpl
  | R512 => if use_avx512f A then
      Ok (if sh =? 1 then mm_shuffle_pd 512 (mask_2x2_4 1 0) a b else if sh =? 2 then b else a) else NotImpl
  end.
(** core/align.h:45-58, 82-95, 127-140, 169-182: the counts 0 and n are dealt with by the API *)
Definition i_align (A : arch) (e : et) (s : rsz) (sh a b : Z) : res Z :=
  if sh =? 0 then Ok a else if sh =? en e then Ok b else
  match e with
  | I8 => i_align16 A s sh a b | I16 => i_align8 A s sh a b | I32 => i_align4 A s sh a b
  | I64 => i_align2 A s sh a b | F32 => i_align4f A s sh a b | F64 => i_align2f A s sh a b end.
