(** shuffle4x2 for 32-bit elements: simdpp/detail/insn/shuffle4x2.h,
    simdpp/detail/shuffle/sse_int32_4x2.h, sse_float32_4x2.h. *)
From Verif Require Export Model.Permute.

(** detail/shuffle/shuffle_mask.h:31-40 *)
Definition mask_4x2 (x0 x1 x2 x3 : Z) : Z :=
  Z.land (Z.lor (Z.lor (Z.shiftl x3 3) (Z.shiftl x2 2)) (Z.lor (Z.shiftl x1 1) x0)) 0xf.
Definition mask_4x2_2 (x0 x1 x2 x3 : Z) : Z := Z.lor (Z.shiftl (mask_4x2 x0 x1 x2 x3) 4) (mask_4x2 x0 x1 x2 x3).
Definition mask_4x2_4 (x0 x1 x2 x3 : Z) : Z := Z.lor (Z.shiftl (mask_4x2_2 x0 x1 x2 x3) 8) (mask_4x2_2 x0 x1 x2 x3).
(** the blend mask for the whole register: SIMDPP_SHUFFLE_MASK_4x2, _2, _4 *)
Definition mask_4x2_R (R x0 x1 x2 x3 : Z) : Z :=
  if R =? 128 then mask_4x2 x0 x1 x2 x3 else if R =? 256 then mask_4x2_2 x0 x1 x2 x3 else mask_4x2_4 x0 x1 x2 x3.
(** x?y:0 of a run-time constant *)
Definition qu (c : Z) (x y : Z) : Z := if c =? 0 then y else x.

(** sse_int32_4x2.h:32-60 (impl_selector): number of the implementation *)
Definition sel_int32_4x2 (A : arch) (s0 s1 s2 s3 : Z) : Z :=
  if (s0 =? 0) && (s1 =? 4) && (s2 =? 1) && (s3 =? 5) then 1
  else if (s0 =? 4) && (s1 =? 0) && (s2 =? 5) && (s3 =? 1) then 2
  else if (s0 =? 2) && (s1 =? 6) && (s2 =? 3) && (s3 =? 7) then 3
  else if (s0 =? 6) && (s1 =? 2) && (s2 =? 7) && (s3 =? 3) then 4
  else if use_sse41 A && (((s0 =? 0) || (s0 =? 4)) && ((s1 =? 1) || (s1 =? 5)) &&
                           ((s2 =? 2) || (s2 =? 6)) && ((s3 =? 3) || (s3 =? 7))) then 5
  else if use_ssse3 A && ((s0 =? s1 - 1) && (s1 =? s2 - 1) && (s2 =? s3 - 1)) then 6
  else 7.
(** sse_int32_4x2.h:65-227 (shuffle_impl<1..7>), R = 128, 256, 512 *)
Definition sse_int32_4x2 (A : arch) (R s0 s1 s2 s3 a b : Z) : Z :=
  match sel_int32_4x2 A s0 s1 s2 s3 with
  | 1 => mm_unpacklo 32 R a b
  | 2 => mm_unpacklo 32 R b a
  | 3 => mm_unpackhi 32 R a b
  | 4 => mm_unpackhi 32 R b a
  | 5 =>
      if R =? 128 then
        mm_blend_epi16 128 (Z.lor (Z.lor (if s0 <? 4 then 0 else 0x03) (if s1 <? 4 then 0 else 0x0c))
                                  (Z.lor (if s2 <? 4 then 0 else 0x30) (if s3 <? 4 then 0 else 0xc0))) a b
      else
        let mask := Z.lor (Z.lor (if s0 <? 4 then 0 else 1) (if s1 <? 4 then 0 else 2))
                          (Z.lor (if s2 <? 4 then 0 else 4) (if s3 <? 4 then 0 else 8)) in
        if R =? 256 then mm_blend 32 256 (Z.lor mask (Z.shiftl mask 4)) a b
        else mm_blend 32 512 (Z.lor (Z.lor mask (Z.shiftl mask 4)) (Z.lor (Z.shiftl mask 8) (Z.shiftl mask 12))) a b
  | 6 =>
      if R =? 512 then
        let ap := mm_alignr_w 32 512 s0 a a in
        let mask := mask_4x2_4 (Z.b2z (3 <? s0)) (Z.b2z (2 <? s0)) (Z.b2z (1 <? s0)) (Z.b2z (0 <? s0)) in
        mm_maskm 32 512 ap mask (mm_alignr_w 32 512 ((s0 + 12) mod 16) b b)
      else mm_alignr R (s0 * 4) b a
  | _ =>
      let mask := mask_4x4 (s0 mod 4) (s1 mod 4) (s2 mod 4) (s3 mod 4) in
      let pa := mm_shuffle_epi32 R mask a in let pb := mm_shuffle_epi32 R mask b in
      if R =? 512 then mm_maskm 32 512 pa (mask_4x2_4 (s0 / 4) (s1 / 4) (s2 / 4) (s3 / 4)) pb
      else if R =? 256 then mm_blend 32 256 (mask_4x2_2 (s0 / 4) (s1 / 4) (s2 / 4) (s3 / 4)) pa pb
      else if use_avx2 A then mm_blend 32 128 (mask_4x2 (s0 / 4) (s1 / 4) (s2 / 4) (s3 / 4)) pa pb
      else if use_sse41 A then
        mm_blend_epi16 128 (mask_4x4 (s0 / 4 * 3) (s1 / 4 * 3) (s2 / 4 * 3) (s3 / 4 * 3)) pa pb
      else
        let ab1 := mm_shuffle_ps 128 (mask_4x4 (s0 mod 4) (s1 mod 4) (s0 mod 4) (s1 mod 4)) a b in
        let ab2 := mm_shuffle_ps 128 (mask_4x4 (s2 mod 4) (s3 mod 4) (s2 mod 4) (s3 mod 4)) a b in
        mm_shuffle_ps 128 (mask_4x4 (qu (s0 / 4) 2 0) (qu (s1 / 4) 3 1) (qu (s2 / 4) 2 0) (qu (s3 / 4) 3 1)) ab1 ab2
  end.

(** sse_float32_4x2.h:30-90 (impl_selector) *)
Definition sel_float32_4x2 (A : arch) (s0 s1 s2 s3 : Z) : Z :=
  let lo2 x y := (x <? 4) && (y <? 4) in let hi2 x y := (4 <=? x) && (4 <=? y) in
  let ne x y := negb (x mod 4 =? y mod 4) in
  if (s0 =? 0) && (s1 =? 4) && (s2 =? 1) && (s3 =? 5) then 1
  else if (s0 =? 4) && (s1 =? 0) && (s2 =? 5) && (s3 =? 1) then 2
  else if (s0 =? 2) && (s1 =? 6) && (s2 =? 3) && (s3 =? 7) then 3
  else if (s0 =? 6) && (s1 =? 2) && (s2 =? 7) && (s3 =? 3) then 4
  else if use_sse41 A && (((s0 =? 0) || (s0 =? 4)) && ((s1 =? 1) || (s1 =? 5)) &&
                           ((s2 =? 2) || (s2 =? 6)) && ((s3 =? 3) || (s3 =? 7))) then 5
  else if lo2 s0 s1 && hi2 s2 s3 then 6
  else if hi2 s0 s1 && lo2 s2 s3 then 7
  else if use_sse41 A && (hi2 s2 s3 && ne s0 s1) then 8
  else if use_sse41 A && (lo2 s2 s3 && ne s0 s1) then 9
  else if hi2 s2 s3 then 10
  else if lo2 s2 s3 then 11
  else if use_sse41 A && (hi2 s0 s1 && ne s2 s3) then 12
  else if use_sse41 A && (lo2 s0 s1 && ne s2 s3) then 13
  else if hi2 s0 s1 then 14
  else if lo2 s0 s1 then 15
  else 16.
(** sse_float32_4x2.h:229-264 (select2_hi) *)
Definition select2_hi (R s0 s1 a b : Z) : Z :=
  let bit k v := if (s0 =? k) || (s1 =? k) then v else 0 in
  let mask := Z.lor (Z.lor (bit 4 1) (bit 5 2)) (Z.lor (bit 6 4) (bit 7 8)) in
  if R =? 128 then mm_blend 32 128 mask a b
  else if R =? 256 then mm_blend 32 256 (Z.lor mask (Z.shiftl mask 4)) a b
  else mm_blend 32 512 (Z.lor (Z.lor mask (Z.shiftl mask 4)) (Z.lor (Z.shiftl mask 8) (Z.shiftl mask 12))) a b.
(** sse_float32_4x2.h:95-520 (shuffle_impl<1..16>) *)
Definition sse_float32_4x2 (A : arch) (R s0 s1 s2 s3 a b : Z) : Z :=
  let sh := mm_shuffle_ps R in
  match sel_float32_4x2 A s0 s1 s2 s3 with
  | 1 => mm_unpacklo 32 R a b
  | 2 => mm_unpacklo 32 R b a
  | 3 => mm_unpackhi 32 R a b
  | 4 => mm_unpackhi 32 R b a
  | 5 => mm_blend 32 R (mask_4x2_R R (s0 / 4) (s1 / 4) (s2 / 4) (s3 / 4)) a b
  | 6 => sh (mask_4x4 s0 s1 (s2 - 4) (s3 - 4)) a b
  | 7 => sh (mask_4x4 (s0 - 4) (s1 - 4) s2 s3) b a
  | 8 => sh (mask_4x4 (s0 mod 4) (s1 mod 4) (s2 - 4) (s3 - 4)) (select2_hi R s0 s1 a b) b
  | 9 => sh (mask_4x4 (s0 mod 4) (s1 mod 4) s2 s3) (select2_hi R s0 s1 a b) a
  | 10 => let ab1 := sh (mask_4x4 (s0 mod 4) (s1 mod 4) (s0 mod 4) (s1 mod 4)) a b in
          sh (mask_4x4 (qu (s0 / 4) 2 0) (qu (s1 / 4) 3 1) (s2 - 4) (s3 - 4)) ab1 b
  | 11 => let ab1 := sh (mask_4x4 (s0 mod 4) (s1 mod 4) (s0 mod 4) (s1 mod 4)) a b in
          sh (mask_4x4 (qu (s0 / 4) 2 0) (qu (s1 / 4) 3 1) s2 s3) ab1 a
  | 12 => sh (mask_4x4 (s0 - 4) (s1 - 4) (s2 mod 4) (s3 mod 4)) b (select2_hi R s2 s3 a b)
  | 13 => sh (mask_4x4 s0 s1 (s2 mod 4) (s3 mod 4)) a (select2_hi R s2 s3 a b)
  | 14 => let ab2 := sh (mask_4x4 (s2 mod 4) (s3 mod 4) (s2 mod 4) (s3 mod 4)) a b in
          sh (mask_4x4 (s0 - 4) (s1 - 4) (qu (s2 / 4) 2 0) (qu (s3 / 4) 3 1)) b ab2
  | 15 => let ab2 := sh (mask_4x4 (s2 mod 4) (s3 mod 4) (s2 mod 4) (s3 mod 4)) a b in
          sh (mask_4x4 s0 s1 (qu (s2 / 4) 2 0) (qu (s3 / 4) 3 1)) a ab2
  | _ =>
      let mask := mask_4x4 (s0 mod 4) (s1 mod 4) (s2 mod 4) (s3 mod 4) in
      if (R =? 128) && negb (use_sse41 A) then
        let ab1 := sh (mask_4x4 (s0 mod 4) (s1 mod 4) (s0 mod 4) (s1 mod 4)) a b in
        let ab2 := sh (mask_4x4 (s2 mod 4) (s3 mod 4) (s2 mod 4) (s3 mod 4)) a b in
        sh (mask_4x4 (qu (s0 / 4) 2 0) (qu (s1 / 4) 3 1) (qu (s2 / 4) 2 0) (qu (s3 / 4) 3 1)) ab1 ab2
      else
        let ap := sh mask a a in let bp := sh mask b b in
        if R =? 512 then mm_maskm 32 512 ap (mask_4x2_4 (s0 / 4) (s1 / 4) (s2 / 4) (s3 / 4)) bp
        else mm_blend 32 R (mask_4x2_R R (s0 / 4) (s1 / 4) (s2 / 4) (s3 / 4)) ap bp
  end.

(** element copies: shuffle4x2.h:54-60 and 146-152 *)
Definition null_shuffle4x2 (s0 s1 s2 s3 a b : Z) : Z :=
  lsh 32 128 4 (fun k => let s := nth (Z.to_nat k) [s0; s1; s2; s3] 0 in
                         if s <? 4 then fromA s else fromB (s - 4)) [a; b].
(** shuffle_bytes16(a, b, make_shuffle_bytes16_mask<sels...>) *)
Definition shuffle_mask (A : arch) (s : rsz) (k : Z) (sels : list Z) (a b : Z) : res Z :=
  let* m := make_shuffle_bytes16_mask A s k sels in i_shuffle_bytes16 A s a b m.
(** shuffle4x2.h: u32 142-191 *)
Definition i_shuffle4x2_32 (A : arch) (s : rsz) (s0 s1 s2 s3 a b : Z) : res Z :=
  match s with
  | R128 =>
      if use_null A then Ok (null_shuffle4x2 s0 s1 s2 s3 a b)
      else if use_sse2 A then Ok (sse_int32_4x2 A 128 s0 s1 s2 s3 a b)
      else if use_neon A then Ok (n32_shuffle4x2 s0 s1 s2 s3 a b)
      else if use_altivec A then shuffle_mask A R128 4 [s0; s1; s2; s3] a b
      else if use_msa A then let* m := i_make_const A W32 R128 [s0; s1; s2; s3] 0 in Ok (msa_vshf 32 m b a)
      else UB
  | R256 => if use_avx2 A then Ok (sse_int32_4x2 A 256 s0 s1 s2 s3 a b) else NotImpl
  | R512 => if use_avx512f A then Ok (sse_int32_4x2 A 512 s0 s1 s2 s3 a b) else NotImpl
  end.
(** shuffle4x2.h: f32 50-99 *)
Definition i_shuffle4x2_f32 (A : arch) (s : rsz) (s0 s1 s2 s3 a b : Z) : res Z :=
  match s with
  | R128 =>
      if use_null A || use_neon_no_flt_sp A then Ok (null_shuffle4x2 s0 s1 s2 s3 a b)
      else if use_sse2 A then Ok (sse_float32_4x2 A 128 s0 s1 s2 s3 a b)
      else if use_neon_flt_sp A then Ok (n32_shuffle4x2 s0 s1 s2 s3 a b)
      else if use_altivec A then shuffle_mask A R128 4 [s0; s1; s2; s3] a b
      else if use_msa A then let* m := i_make_const A W32 R128 [s0; s1; s2; s3] 0 in Ok (msa_vshf 32 m b a)
      else UB
  | R256 => if use_avx A then Ok (sse_float32_4x2 A 256 s0 s1 s2 s3 a b) else NotImpl
  | R512 => if use_avx512f A then Ok (sse_float32_4x2 A 512 s0 s1 s2 s3 a b) else NotImpl
  end.
Definition i_shuffle4x2 (A : arch) (e : et) (s : rsz) (s0 s1 s2 s3 a b : Z) : res Z :=
  match e with
  | I32 => i_shuffle4x2_32 A s s0 s1 s2 s3 a b
  | F32 => i_shuffle4x2_f32 A s s0 s1 s2 s3 a b
  | I64 | F64 => NotImpl (* see Model/Shuf64.v *)
  | _ => NotImpl (* no such overload *)
  end.
(** core/shuffle2.h:40-57 (four selectors): shuffle4x2<a0,a1,b0+4,b1+4> *)
Definition i_shuffle2 (A : arch) (e : et) (s : rsz) (a0 a1 b0 b1 a b : Z) : res Z :=
  i_shuffle4x2 A e s a0 a1 (b0 + 4) (b1 + 4) a b.
