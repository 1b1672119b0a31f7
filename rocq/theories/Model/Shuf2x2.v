(** shuffle2x2 and shuffle1: simdpp/detail/insn/shuffle2x2.h, simdpp/core/{shuffle1,shuffle2x2}.h. *)
From Verif Require Export Model.Shuf4x2.

(** element copies: shuffle2x2.h:38-43, 257-262 (32-bit), 185-188, 433-436 (64-bit) *)
Definition null_shuffle2x2 (w s0 s1 a b : Z) : Z :=
  lsh w 128 2 (fun k => let s := if k =? 0 then s0 else s1 in if s <? 2 then fromA s else fromB (s - 2)) [a; b].
(** the x86 code for 32-bit elements: f32 45-65, 88-104, 113-129; u32 264-286, 310-330, 339-359.
    _mm*_permute_ps(x, m), _mm*_shuffle_ps(x, x, m) and _mm*_shuffle_epi32(x, m) select alike. *)
Definition sse_shuffle2x2_32 (A : arch) (e : et) (s : rsz) (s0 s1 a b : Z) : Z :=
  let R := rbits s in
  let sh m x := mm_shuffle_epi32 R m x in
  let bl x y := match s, e with
    | R128, F32 => mm_blend 32 128 0xa x y
    | R128, _ => mm_blend_epi16 128 0xcc x y
    | R256, F32 => mm_blend 32 256 0xaa x y
    | R256, _ => mm_blend 32 256 0xa x y
    | R512, _ => mm_blend 32 512 0xaaaa x y end in
  let has_bl := match s with R128 => use_sse41 A | _ => true end in
  if (s0 <? 2) && (s1 <? 2) then sh (mask_4x4 s0 s1 (s0 + 2) (s1 + 2)) a
  else if (2 <=? s0) && (2 <=? s1) then sh (mask_4x4 (s0 - 2) (s1 - 2) s0 s1) b
  else if has_bl && ((s0 =? 0) && (s1 =? 3)) then bl a b
  else if has_bl && ((s0 =? 2) && (s1 =? 1)) then bl b a
  else if s0 <? 2 then
    let t := mm_shuffle_ps R (mask_4x4 s0 (s0 + 1) (s1 - 2) (s1 - 1)) a b in sh (MM_SHUFFLE 3 1 2 0) t
  else
    let t := mm_shuffle_ps R (mask_4x4 s1 (s1 + 1) (s0 - 2) (s0 - 1)) b a in sh (MM_SHUFFLE 3 1 2 0) t.
(** the MSA rung, both element types: vshf with the pair of selectors spread over four lanes *)
Definition msa_shuffle2x2_32 (A : arch) (s0 s1 a b : Z) : res Z :=
  let q0 := if s0 <? 2 then s0 else s0 + 2 in let q1 := if s1 <? 2 then s1 else s1 + 2 in
  let* m := i_make_const A W32 R128 [q0; q1; q0 + 2; q1 + 2] 0 in Ok (msa_vshf 32 m b a).
(** f32 33-131; u32 252-361 *)
Definition i_shuffle2x2_32 (A : arch) (e : et) (s : rsz) (s0 s1 a b : Z) : res Z :=
  match s with
  | R128 =>
      if use_null A then Ok (null_shuffle2x2 32 s0 s1 a b)
      else if use_sse2 A then Ok (sse_shuffle2x2_32 A e R128 s0 s1 a b)
      else if use_neon A then Ok (n32_shuffle2x2 s0 s1 a b)
      else if use_altivec A then shuffle_mask A R128 4 [s0; s1] a b
      else if use_msa A then
        msa_shuffle2x2_32 A s0 s1 a b
      else UB
  | R256 => if (match e with F32 => use_avx A | _ => use_avx2 A end)
            then Ok (sse_shuffle2x2_32 A e R256 s0 s1 a b) else NotImpl
  | R512 => if use_avx512f A then Ok (sse_shuffle2x2_32 A e R512 s0 s1 a b) else NotImpl
  end.
(** vec_xxpermdi forms: 168-178, 415-425 *)
Definition vsx_shuffle2x2 (s0 s1 a b : Z) : Z :=
  if (s0 <? 2) && (s1 <? 2) then vec_xxpermdi a a (VSX_mask_2x2 s0 s1)
  else if (2 <=? s0) && (2 <=? s1) then vec_xxpermdi b b (VSX_mask_2x2 (s0 - 2) (s1 - 2))
  else if s0 <? 2 then vec_xxpermdi a b (VSX_mask_2x2 s0 (s1 - 2))
  else vec_xxpermdi b a (VSX_mask_2x2 s1 (s0 - 2)).
(** the immediate of shuffle_pd for the whole register *)
Definition mask_2x2_R (s : rsz) (x0 x1 : Z) : Z :=
  match s with R128 => mask_2x2 x0 x1 | R256 => mask_2x2_2 x0 x1 | R512 => mask_2x2_4 x0 x1 end.
Definition blend_2_R (s : rsz) : Z := match s with R128 => 0x2 | R256 => 0xa | R512 => 0xaa end.
(** f64 142-242 *)
Definition sse_shuffle2x2_f64 (A : arch) (s : rsz) (s0 s1 a b : Z) : Z :=
  let R := rbits s in let has_bl := match s with R128 => use_sse41 A | _ => true end in
  if (s0 <? 2) && (s1 <? 2) then mm_shuffle_pd R (mask_2x2_R s s0 s1) a a
  else if (2 <=? s0) && (2 <=? s1) then mm_shuffle_pd R (mask_2x2_R s (s0 - 2) (s1 - 2)) b b
  else if has_bl && ((s0 =? 0) && (s1 =? 3)) then mm_blend 64 R (blend_2_R s) a b
  else if has_bl && ((s0 =? 2) && (s1 =? 1)) then mm_blend 64 R (blend_2_R s) b a
  else if s0 <? 2 then mm_shuffle_pd R (mask_2x2_R s s0 (s1 - 2)) a b
  else mm_shuffle_pd R (mask_2x2_R s s1 (s0 - 2)) b a.
Definition i_shuffle2x2_f64 (A : arch) (s : rsz) (s0 s1 a b : Z) : res Z :=
  match s with
  | R128 =>
      if use_sse2 A then Ok (sse_shuffle2x2_f64 A R128 s0 s1 a b)
      else if use_neon64 A then Ok (n64_shuffle2x2 A s0 s1 a b)
      else if use_vsx206 A then Ok (vsx_shuffle2x2 s0 s1 a b)
      else if use_msa A then let* m := i_make_const A W64 R128 [s0; s1] 0 in Ok (msa_vshf 64 m b a)
      else if use_null A || use_neon A || use_altivec A then Ok (null_shuffle2x2 64 s0 s1 a b) else UB
  | R256 => if use_avx A then Ok (sse_shuffle2x2_f64 A R256 s0 s1 a b) else NotImpl
  | R512 => if use_avx512f A then Ok (sse_shuffle2x2_f64 A R512 s0 s1 a b) else NotImpl
  end.
(** u64 375-412 (128 bits), 447-469 (256), 478-506 (512) *)
Definition sse_shuffle2x2_64 (A : arch) (s : rsz) (s0 s1 a b : Z) : Z :=
  let R := rbits s in
  let is x y := (s0 =? x) && (s1 =? y) in
  let tail :=
    match s with
    | R128 =>
        if use_sse41 A && is 0 3 then mm_blend_epi16 128 0xf0 a b
        else if use_sse41 A && is 2 1 then mm_blend_epi16 128 0xf0 b a
        else if use_ssse3 A && is 1 2 then mm_alignr 128 8 b a
        else if use_ssse3 A && is 3 0 then mm_alignr 128 8 a b
        else if s0 <? 2 then mm_shuffle_pd 128 (mask_2x2 s0 (s1 - 2)) a b
        else mm_shuffle_pd 128 (mask_2x2 s1 (s0 - 2)) b a
    | R256 =>
        if is 0 3 then mm_blend 32 256 0xcc a b
        else if is 2 1 then mm_blend 32 256 0xcc b a
        else if is 1 2 then mm_alignr 256 8 b a
        else mm_alignr 256 8 a b
    | R512 =>
        if is 0 3 then mm_blend 64 512 0xaa a b
        else if is 2 1 then mm_blend 64 512 0xaa b a
        else if s0 <? 2 then mm_shuffle_pd 512 (mask_2x2_4 s0 (s1 - 2)) a b
        else mm_shuffle_pd 512 (mask_2x2_4 s1 (s0 - 2)) b a
    end in
  if (s0 <? 2) && (s1 <? 2) then
    match s with
    | R512 => mm_permute4x64 512 (mask_4x4 s0 s1 (s0 + 2) (s1 + 2)) a
    | _ => mm_shuffle_epi32 R (mask_4x4 (s0 * 2) (s0 * 2 + 1) (s1 * 2) (s1 * 2 + 1)) a end
  else if (2 <=? s0) && (2 <=? s1) then
    match s with
    | R512 => mm_permute4x64 512 (mask_4x4 (s0 - 2) (s1 - 2) s0 s1) b
    | _ => mm_shuffle_epi32 R (mask_4x4 (s0 * 2) (s0 * 2 + 1) (s1 * 2) (s1 * 2 + 1)) b end
  else if is 0 2 then mm_unpacklo 64 R a b
  else if is 2 0 then mm_unpacklo 64 R b a
  else if is 1 3 then mm_unpackhi 64 R a b
  else if is 3 1 then mm_unpackhi 64 R b a
  else tail.
Definition i_shuffle2x2_64 (A : arch) (s : rsz) (s0 s1 a b : Z) : res Z :=
  match s with
  | R128 =>
      if use_sse2 A then Ok (sse_shuffle2x2_64 A R128 s0 s1 a b)
      else if use_neon A then Ok (n64_shuffle2x2 A s0 s1 a b)
      else if use_vsx207 A then Ok (vsx_shuffle2x2 s0 s1 a b)
      else if use_msa A then let* m := i_make_const A W64 R128 [s0; s1] 0 in Ok (msa_vshf 64 m b a)
      else if use_null A || use_altivec A then Ok (null_shuffle2x2 64 s0 s1 a b) else UB
  | R256 => if use_avx2 A then Ok (sse_shuffle2x2_64 A R256 s0 s1 a b) else NotImpl
  | R512 => if use_avx512f A then Ok (sse_shuffle2x2_64 A R512 s0 s1 a b) else NotImpl
  end.
Definition i_shuffle2x2 (A : arch) (e : et) (s : rsz) (s0 s1 a b : Z) : res Z :=
  match e with
  | I32 | F32 => i_shuffle2x2_32 A e s s0 s1 a b
  | I64 => i_shuffle2x2_64 A s s0 s1 a b
  | F64 => i_shuffle2x2_f64 A s s0 s1 a b
  | _ => NotImpl (* no such overload *)
  end.
(** core/shuffle1.h:51-59 *)
Definition i_shuffle1 (A : arch) (e : et) (s : rsz) (s0 s1 a b : Z) : res Z := i_shuffle2x2 A e s s0 (s1 + 2) a b.
