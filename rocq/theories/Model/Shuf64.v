(** 64-bit shuffles on 256- and 512-bit registers: simdpp/detail/shuffle/sse_int64_4x2.h. *)
From Verif Require Export Model.Permute.

(** sse_int64_4x2.h:32-216; the choice of the implementation is made at compile time.  The upper
    halves of the registers cast to 512 bits (line 170) are never selected: modelled as 0. *)
Definition i_shuffle4x2_u64 (A : arch) (s : rsz) (s0 s1 s2 s3 a b : Z) : res Z :=
  let R := rbits s in
  let bl x := if x <? 4 then 0 else 1 in
  let lanemask := bl s0 + 2 * bl s1 + 4 * bl s2 + 8 * bl s3 in
  let mask32 := 3 * bl s0 + 0x0c * bl s1 + 0x30 * bl s2 + 0xc0 * bl s3 in
  let p x := if x <? 4 then x else x + 4 in
  let idx (R : Z) (l : list Z) := pack 64 R (fun i => nth (Z.to_nat (i mod Z.of_nat (length l))) l 0) in
  let run :=
    if (s0 =? 0) && (s1 =? 4) && (s2 =? 2) && (s3 =? 6) then Ok (mm_unpacklo 64 R a b)
    else if (s0 =? 4) && (s1 =? 0) && (s2 =? 6) && (s3 =? 2) then Ok (mm_unpacklo 64 R b a)
    else if (s0 =? 1) && (s1 =? 5) && (s2 =? 3) && (s3 =? 7) then Ok (mm_unpackhi 64 R a b)
    else if (s0 =? 5) && (s1 =? 1) && (s2 =? 7) && (s3 =? 3) then Ok (mm_unpackhi 64 R b a)
    else if ((s0 =? 0) || (s0 =? 4)) && ((s1 =? 1) || (s1 =? 5)) && ((s2 =? 2) || (s2 =? 6)) && ((s3 =? 3) || (s3 =? 7)) then
      if R =? 256 then Ok (mm_blend 32 256 mask32 a b) else Ok (mm_blend 64 512 (lanemask + 16 * lanemask) a b)
    else if use_avx512f A then
      if R =? 256 then
        if use_avx512vl A then Ok (mm_permutex2var 64 256 a (idx 256 [s0; s1; s2; s3]) b)
        else Ok (lane 256 0 (mm_permutex2var 64 512 a (idx 512 [p s0; p s1; p s2; p s3]) b))
      else Ok (mm_permutex2var 64 512 a (idx 512 [p s0; p s1; p s2; p s3; p s0 + 4; p s1 + 4; p s2 + 4; p s3 + 4]) b)
    else if (s0 =? 1) && (s1 =? 4) && (s2 =? 3) && (s3 =? 6) then
      Ok (mm_permute4x64 256 (MM_SHUFFLE 2 3 0 1) (mm_blend 32 256 0x33 a b))
    else
      let m := mask_4x4 (s0 mod 4) (s1 mod 4) (s2 mod 4) (s3 mod 4) in
      Ok (mm_blend 32 256 mask32 (mm_permute4x64 256 m a) (mm_permute4x64 256 m b)) in
  match s with
  | R128 => NotImpl
  | R256 => if use_avx2 A then run else NotImpl
  | R512 => if use_avx512f A then run else NotImpl
  end.
