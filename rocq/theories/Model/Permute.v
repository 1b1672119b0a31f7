(** zip, permute2/permute4 within registers, splat of a lane:
    simdpp/detail/insn/{zip_lo,zip_hi,permute4,permute2,splat_n}.h. *)
From Verif Require Export Model.NeonShuf.

(** detail/null/shuffle.h:51-78 (zip_lo_impl, zip_hi_impl): r[2i] = a[o+i], r[2i+1] = b[o+i] *)
Definition null_zip (w : Z) (hi : bool) (a b : Z) : Z :=
  lsh w 128 (128 / w) (fun k => let i := (if hi then 128 / w / 2 else 0) + k / 2 in
                                if k mod 2 =? 0 then fromA i else fromB i) [a; b].
(** detail/neon/shuffle.h zip2_lo, zip2_hi (via transpose2): low halves; high halves *)
Definition neon_zip2 (hi : bool) (a b : Z) : Z :=
  if hi then vcombine (vget_high a) (vget_high b) else vcombine (vget_low a) (vget_low b).
Definition mm_unpack (w R : Z) (hi : bool) a b := if hi then mm_unpackhi w R a b else mm_unpacklo w R a b.
Definition vec_merge (w : Z) (hi : bool) a b := if hi then vec_mergel w a b else vec_mergeh w a b.
Definition msa_ilv (w : Z) (hi : bool) b a := if hi then msa_ilvl w b a else msa_ilvr w b a.
(** zip_lo.h: u8 26-56, u16 67-95, u32 106-135, u64 146-175, f32 186-215, f64 226-256;
    zip_hi.h the same lines (its 64-bit ladders name MSA last) *)
Definition i_zip (A : arch) (e : et) (s : rsz) (hi : bool) (a b : Z) : res Z :=
  let w := eb e in
  match s with
  | R128 =>
    match e with
    | I8 | I16 | I32 =>
        if use_null A then Ok (null_zip w hi a b)
        else if use_sse2 A then Ok (mm_unpack w 128 hi a b)
        else if use_neon A then Ok (vzip w 128 hi a b)
        else if use_altivec A then Ok (vec_merge w hi a b)
        else if use_msa A then Ok (msa_ilv w hi b a) else UB
    | I64 =>
        if use_sse2 A then Ok (mm_unpack 64 128 hi a b)
        else if use_neon A then Ok (neon_zip2 hi a b)
        else if use_vsx207 A then Ok (vec_merge 64 hi a b)
        else if use_msa A then Ok (msa_ilv 64 hi b a)
        else if use_null A || use_altivec A then Ok (null_zip 64 hi a b) else UB
    | F32 =>
        if use_null A || use_neon_no_flt_sp A then Ok (null_zip 32 hi a b)
        else if use_sse2 A then Ok (mm_unpack 32 128 hi a b)
        else if use_neon A then Ok (vzip 32 128 hi a b)
        else if use_altivec A then Ok (vec_merge 32 hi a b)
        else if use_msa A then Ok (msa_ilv 32 hi b a) else UB
    | F64 =>
        if use_sse2 A then Ok (if hi then mm_movehl_ps b a else mm_unpacklo 64 128 a b)
        else if use_neon64 A then Ok (vtrn 64 128 hi a b)
        else if use_vsx206 A then Ok (vec_merge 64 hi a b)
        else if use_msa A then Ok (msa_ilv 64 hi b a)
        else if use_null A || use_altivec A || use_neon A then Ok (null_zip 64 hi a b) else UB
    end
  | R256 => match e with
            | F32 | F64 => if use_avx A then Ok (mm_unpack w 256 hi a b) else NotImpl
            | _ => if use_avx2 A then Ok (mm_unpack w 256 hi a b) else NotImpl end
  | R512 => match e with
            | I8 | I16 => if use_avx512bw A then Ok (mm_unpack w 512 hi a b) else NotImpl
            | _ => if use_avx512f A then Ok (mm_unpack w 512 hi a b) else NotImpl end
  end.

(** detail/null/shuffle.h permute<s0,s1>, permute<s0,s1,s2,s3>: loops over groups *)
Definition null_permute (w : Z) (sels : list Z) (a : Z) : Z :=
  lsh w 128 (Z.of_nat (length sels)) (fun k => fromA (nth (Z.to_nat k) sels 0)) [a].
(** permute_bytes16 with a constant mask of element selectors *)
Definition permute_mask (A : arch) (s : rsz) (k : Z) (sels : list Z) (a : Z) : res Z :=
  let* m := make_shuffle_bytes16_mask A s k sels in i_permute_bytes16 A s a m.
(** permute4.h: u16 40-84 *)
Definition i_permute4_16 (A : arch) (s : rsz) (s0 s1 s2 s3 a : Z) : res Z :=
  let sh R := mm_shufflehi_epi16 R (mask_4x4 s0 s1 s2 s3) (mm_shufflelo_epi16 R (mask_4x4 s0 s1 s2 s3) a) in
  match s with
  | R128 =>
      if use_null A then Ok (null_permute 16 [s0; s1; s2; s3] a)
      else if use_sse2 A then Ok (sh 128)
      else if use_neon A then n16_permute4 A s0 s1 s2 s3 a
      else if use_altivec A then permute_mask A R128 2 [s0; s1; s2; s3] a
      else if use_msa A then Ok (msa_shf 16 (mask_4x4 s0 s1 s2 s3) a) else UB
  | R256 => if use_avx2 A then Ok (sh 256) else NotImpl
  | R512 => if use_avx512bw A then Ok (sh 512) else NotImpl
  end.
(** __builtin_shuffle(a, a, {s0,s1,s2,s3}): lane k is element s_k of a *)
Definition builtin_shuffle4 (s0 s1 s2 s3 a : Z) : Z :=
  pack 32 128 (fun k => lane 32 (nth (Z.to_nat k) [s0; s1; s2; s3] 0) a).
(** permute4.h: u32 95-134 *)
Definition i_permute4_32 (A : arch) (s : rsz) (s0 s1 s2 s3 a : Z) : res Z :=
  match s with
  | R128 =>
      if use_null A then Ok (null_permute 32 [s0; s1; s2; s3] a)
      else if use_sse2 A then Ok (mm_shuffle_epi32 128 (MM_SHUFFLE s3 s2 s1 s0) a)
      else if use_neon A then
        (if cc_gnuc A then Ok (builtin_shuffle4 s0 s1 s2 s3 a) else Ok (n32_permute4 s0 s1 s2 s3 a))
      else if use_altivec A then permute_mask A R128 4 [s0; s1; s2; s3] a
      else if use_msa A then Ok (msa_shf 32 (mask_4x4 s0 s1 s2 s3) a) else UB
  | R256 => if use_avx2 A then Ok (mm_shuffle_epi32 256 (MM_SHUFFLE s3 s2 s1 s0) a) else NotImpl
  | R512 => if use_avx512f A then Ok (mm_shuffle_epi32 512 (MM_SHUFFLE s3 s2 s1 s0) a) else NotImpl
  end.
(** permute4.h: f32 145-184 *)
Definition i_permute4_f32 (A : arch) (s : rsz) (s0 s1 s2 s3 a : Z) : res Z :=
  match s with
  | R128 =>
      if use_null A then Ok (null_permute 32 [s0; s1; s2; s3] a)
      else if use_sse2 A then Ok (mm_shuffle_ps 128 (MM_SHUFFLE s3 s2 s1 s0) a a)
      else if use_neon A then
        (if cc_gnuc A && use_neon_flt_sp A then Ok (builtin_shuffle4 s0 s1 s2 s3 a)
         else Ok (n32_permute4 s0 s1 s2 s3 a))
      else if use_altivec A then permute_mask A R128 4 [s0; s1; s2; s3] a
      else if use_msa A then Ok (msa_shf 32 (mask_4x4 s0 s1 s2 s3) a) else UB
  | R256 => if use_avx A then Ok (mm_shuffle_ps 256 (MM_SHUFFLE s3 s2 s1 s0) a a) else NotImpl
  | R512 => if use_avx512f A then Ok (mm_shuffle_ps 512 (MM_SHUFFLE s3 s2 s1 s0) a a) else NotImpl
  end.
(** permute4.h: u64x4 195-202 (AVX2 branch), uint64<8> 214-218: registers of at least 256
    bits.  128-bit registers: see Model/Shuf64.v. *)
Definition i_permute4_64 (A : arch) (s : rsz) (s0 s1 s2 s3 a : Z) : res Z :=
  match s with
  | R128 => UB
  | R256 => if use_avx2 A then Ok (mm_permute4x64 256 (mask_4x4 s0 s1 s2 s3) a) else NotImpl
  | R512 => if use_avx512f A then Ok (mm_permute4x64 512 (mask_4x4 s0 s1 s2 s3) a) else NotImpl
  end.

(** detail/insn/shuffle_mask.h:15-19, little endian *)
Definition VSX_mask_2x2 (x0 x1 : Z) : Z := Z.land (Z.lor (Z.shiftl x0 1) x1) 3.
(** permute2.h: u64 55-87 *)
Definition i_permute2_64 (A : arch) (s : rsz) (s0 s1 a : Z) : res Z :=
  match s with
  | R128 =>
      if use_sse2 A || use_msa A then i_permute4_32 A R128 (s0 * 2) (s0 * 2 + 1) (s1 * 2) (s1 * 2 + 1) a
      else if use_neon A then Ok (n64_permute2 A s0 s1 a)
      else if use_vsx207 A then Ok (vec_xxpermdi a a (VSX_mask_2x2 s0 s1))
      else if use_null A || use_altivec A then Ok (null_permute 64 [s0; s1] a) else UB
  | _ => i_permute4_64 A s s0 s1 (s0 + 2) (s1 + 2) a
  end.
(** permute2.h: f64 98-134 *)
Definition i_permute2_f64 (A : arch) (s : rsz) (s0 s1 a : Z) : res Z :=
  let b x k := Z.shiftl x k in
  match s with
  | R128 =>
      if use_sse2 A then Ok (mm_shuffle_pd 128 (mask_2x2 s0 s1) a a)
      else if use_vsx206 A then Ok (vec_xxpermdi a a (VSX_mask_2x2 s0 s1))
      else if use_neon64 A || use_msa A then i_permute2_64 A R128 s0 s1 a
      else if use_null A || use_neon A || use_altivec A then Ok (null_permute 64 [s0; s1] a) else UB
  | R256 =>
      if use_avx A then
        (if use_avx2 A then Ok (mm_permute4x64 256 (Z.lor (Z.lor (Z.lor s0 (b s1 2)) (b (s0 + 2) 4)) (b (s1 + 2) 6)) a)
         else Ok (mm_permute_pd 256 (Z.lor (Z.lor (Z.lor s0 (b s1 1)) (b s0 2)) (b s1 3)) a))
      else NotImpl
  | R512 =>
      if use_avx512f A then
        Ok (mm_permute_pd 512 (Z.lor (Z.lor (Z.lor (Z.lor (Z.lor (Z.lor (Z.lor s0 (b s1 1)) (b s0 2)) (b s1 3))
              (b s0 4)) (b s1 5)) (b s0 6)) (b s1 7)) a)
      else NotImpl
  end.
(** permute2.h:31-51 for the narrower types *)
Definition i_permute2 (A : arch) (e : et) (s : rsz) (s0 s1 a : Z) : res Z :=
  match e with
  | I8 => NotImpl (* no such overload *)
  | I16 => i_permute4_16 A s s0 s1 (s0 + 2) (s1 + 2) a
  | I32 => i_permute4_32 A s s0 s1 (s0 + 2) (s1 + 2) a
  | F32 => i_permute4_f32 A s s0 s1 (s0 + 2) (s1 + 2) a
  | I64 => i_permute2_64 A s s0 s1 a
  | F64 => i_permute2_f64 A s s0 s1 a
  end.
(** the overloads for 16- and 32-bit elements *)
Definition i_permute4 (A : arch) (e : et) (s : rsz) (s0 s1 s2 s3 a : Z) : res Z :=
  match e with
  | I8 => NotImpl (* no such overload *)
  | I16 => i_permute4_16 A s s0 s1 s2 s3 a
  | I32 => i_permute4_32 A s s0 s1 s2 s3 a
  | F32 => i_permute4_f32 A s s0 s1 s2 s3 a
  | I64 | F64 => NotImpl (* see Model/Shuf64.v *)
  end.

(** detail/null/shuffle.h splat *)
Definition null_splat (w s a : Z) : Z := lsh w 128 (128 / w) (fun _ => fromA s) [a].
(** a lane of a q register through its halves: vdupq_lane(low or high half, i) *)
Definition vdupq_half (w s a : Z) : Z :=
  let h := 64 / w in
  if s <? h then vdup_lane w 128 (if s <? h then s else 0) (vget_low a)
  else vdup_lane w 128 (if s <? h then 0 else s - h) (vget_high a).
(** splat_n.h: u16 118-195 *)
Definition i_splat8 (A : arch) (s : rsz) (n a : Z) : res Z :=
  let sh R :=
    if n <? 4 then mm_shufflelo_epi16 R (mask_4x4 n n n n) a
    else mm_shufflehi_epi16 R (mask_4x4 (n - 4) (n - 4) (n - 4) (n - 4)) a in
  let p s := if n <? 4 then i_permute2 A I64 s 0 0 (sh (rbits s)) else i_permute2 A I64 s 1 1 (sh (rbits s)) in
  match s with
  | R128 =>
      if use_null A then Ok (null_splat 16 n a)
      else if use_avx2 A then let* b := i_move_l_wrapper A I16 R128 n a in Ok (mm_broadcast 16 128 b)
      else if use_ssse3 A then permute_mask A R128 2 [n; n; n; n; n; n; n; n] a
      else if use_sse2 A then p R128
      else if use_neon64 A then Ok (vdup_lane 16 128 n a)
      else if use_neon A then Ok (vdupq_half 16 n a)
      else if use_altivec A then Ok (vec_splat 16 n a)
      else if use_msa A then Ok (msa_splat 16 n a) else UB
  | R256 => if use_avx2 A then p R256 else NotImpl
  | R512 => if use_avx512bw A then p R512 else NotImpl
  end.
(** splat_n.h: u8 45-107 *)
Definition i_splat16 (A : arch) (s : rsz) (n a : Z) : res Z :=
  let z s := let* b := i_zip A I8 s (negb (n <? 8)) a a in i_splat8 A s (n mod 8) b in
  match s with
  | R128 =>
      if use_null A then Ok (null_splat 8 n a)
      else if use_avx2 A then let* b := i_move_l_wrapper A I8 R128 n a in Ok (mm_broadcast 8 128 b)
      else if use_ssse3 A then permute_mask A R128 1 [n; n; n; n; n; n; n; n; n; n; n; n; n; n; n; n] a
      else if use_sse2 A then
        let n1 := if n mod 2 =? 1 then mm_srl 16 128 a 8 else mm_sll 16 128 a 8 in
        let n2 := if n mod 2 =? 1 then mm_sll 16 128 n1 8 else mm_srl 16 128 n1 8 in
        i_splat8 A R128 (n / 2) (mm_or n1 n2)
      else if use_neon64 A then Ok (vdup_lane 8 128 n a)
      else if use_neon A then Ok (vdupq_half 8 n a)
      else if use_altivec A then Ok (vec_splat 8 n a)
      else if use_msa A then Ok (msa_splat 8 n a) else UB
  | R256 => if use_avx2 A then z R256 else NotImpl
  | R512 => if use_avx512bw A then z R512 else NotImpl
  end.
(** splat_n.h: u32 206-249, f32 316-359 *)
Definition i_splat4 (A : arch) (e : et) (s : rsz) (n a : Z) : res Z :=
  match s with
  | R128 =>
      if (match e with F32 => use_null A || use_neon_no_flt_sp A | _ => use_null A end) then Ok (null_splat 32 n a)
      else if use_sse2 A then i_permute4 A e R128 n n n n a
      else if use_neon64 A then Ok (vdup_lane 32 128 n a)
      else if use_neon A then Ok (vdupq_half 32 n a)
      else if use_altivec A then Ok (vec_splat 32 n a)
      else if use_msa A then Ok (msa_splat 32 n a) else UB
  | _ => i_permute4 A e s n n n n a
  end.
(** splat_n.h: u64 260-305 *)
Definition i_splat2 (A : arch) (s : rsz) (n a : Z) : res Z :=
  match s with
  | R128 =>
      if use_sse2 A then (if n =? 0 then i_permute2 A I64 R128 0 0 a else i_permute2 A I64 R128 1 1 a)
      else if use_neon64 A then Ok (vdup_lane 64 128 n a)
      else if use_neon A then Ok (vdup_lane 64 128 0 (if n =? 0 then vget_low a else vget_high a))
      else if use_vsx207 A then Ok (vec_splat 64 n a)
      else if use_msa A then Ok (msa_splat 64 n a)
      else if use_null A || use_altivec A then Ok (null_splat 64 n a) else UB
  | _ => i_permute2 A I64 s n n a
  end.
(** splat_n.h: f64 370-403 *)
Definition i_splat2f (A : arch) (s : rsz) (n a : Z) : res Z :=
  match s with
  | R128 =>
      if use_sse2 A then i_permute2 A F64 R128 n n a
      else if use_neon64 A then Ok (vdup_lane 64 128 n a)
      else if use_vsx206 A then Ok (vec_splat 64 n a)
      else if use_msa A then Ok (msa_splat 64 n a)
      else if use_null A || use_altivec A || use_neon A then Ok (null_splat 64 n a) else UB
  | _ => i_permute2 A F64 s n n a
  end.
Definition i_splat_n (A : arch) (e : et) (s : rsz) (n a : Z) : res Z :=
  match e with
  | I8 => i_splat16 A s n a | I16 => i_splat8 A s n a
  | I32 => i_splat4 A I32 s n a | F32 => i_splat4 A F32 s n a
  | I64 => i_splat2 A s n a | F64 => i_splat2f A s n a
  end.
