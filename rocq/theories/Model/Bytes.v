(** permute_bytes16, shuffle_bytes16 and make_shuffle_bytes16_mask:
    simdpp/detail/insn/{permute_bytes16,shuffle_bytes16}.h,
    simdpp/core/make_shuffle_bytes_mask.h. *)
From Verif Require Export Model.Arith Model.Move.

(** permute_bytes16.h: 128 bits 25-53; 256 bits 55-61; 512 bits 63-68 *)
Definition i_permute_bytes16 (A : arch) (s : rsz) (a m : Z) : res Z :=
  match s with
  | R128 =>
      if use_null A then Ok (pack 8 128 (fun i => lane 8 (Z.land (lane 8 i m) 0x0f) a))
      else if use_ssse3 A then Ok (mm_shuffle_epi8 128 a m)
      else if use_neon32 A then
        let table := vcombine (vget_low a) (vget_high a) in
        let lo := vtbl 64 128 table (vget_low m) in
        let hi := vtbl 64 128 table (vget_high m) in Ok (vcombine lo hi)
      else if use_neon64 A then Ok (vtbl 128 128 a m)
      else if use_altivec A then Ok (vec_perm a a m)
      else if use_msa A then Ok (msa_vshf 8 m a a) else NotImpl
  | R256 => if use_avx2 A then Ok (mm_shuffle_epi8 256 a m) else NotImpl
  | R512 => if use_avx512bw A then Ok (mm_shuffle_epi8 512 a m) else NotImpl
  end.
(** shuffle_bytes16.h: 128 bits 29-93 (the clang 3.6/3.7 workaround of 54-62 is not
    modelled); 256 bits 95-108; 512 bits 110-122 *)
Definition i_shuffle_bytes16 (A : arch) (s : rsz) (a b m : Z) : res Z :=
  let blendv R :=
    let sel := mm_sll 16 R m 3 in
    mm_blendv_epi8 R (mm_shuffle_epi8 R a m) (mm_shuffle_epi8 R b m) sel in
  match s with
  | R128 =>
      if use_null A then Ok (pack 8 128 (fun i =>
        let j := Z.land (lane 8 i m) 0x0f in
        let which := lane 8 i m <? 0x10 in
        if which then lane 8 j a else lane 8 j b))
      else if use_xop A then Ok (mm_perm_epi8 a b m)
      else if use_avx A then Ok (blendv 128)
      else if use_ssse3 A then
        let* c1 := konst A W8 R128 0x70 in let* m1 := i_add A W8 R128 m c1 in
        let* c2 := konst A W8 R128 0xf0 in let* m2 := i_add A W8 R128 m c2 in
        let ai := mm_shuffle_epi8 128 a m1 in
        let bi := mm_shuffle_epi8 128 b m2 in
        i_bit_or A W8 R128 ai bi
      else if use_neon32 A then
        let table := vtab2 (vcombine (vget_low a) (vget_high a)) (vcombine (vget_low b) (vget_high b)) in
        let lo := vtbl 64 256 table (vget_low m) in
        let hi := vtbl 64 256 table (vget_high m) in Ok (vcombine lo hi)
      else if use_neon64 A then Ok (vtbl 128 256 (vtab2 a b) m)
      else if use_altivec A then Ok (vec_perm a b m)
      else if use_msa A then Ok (msa_vshf 8 m b a) else NotImpl
  | R256 => if use_avx2 A then Ok (blendv 256) else NotImpl
  | R512 => if use_avx512bw A then
      let* c := konst A W8 R512 0x10 in
      let sel := mm_test_mask 8 512 m c in
      Ok (mm_mask_blend 8 512 sel (mm_shuffle_epi8 512 a m) (mm_shuffle_epi8 512 b m)) else NotImpl
  end.

(** make_shuffle_bytes_mask.h:47-80: byte i of the selector s of k-byte elements in groups
    of u elements *)
Definition shuffle_byte (k u s i : Z) : Z :=
  if s =? -1 then 0x80 else (if s <? u then s * k else (s - u) * k + 16) + i.
(** the sixteen mask bytes for the selectors [sels]: one group after the other
    (u8: 117-127, 165-177, 212-229, 258-286; u16: 322-333, 370-383, 413-433;
    u32: 465-476, 504-517; u64: 543-554) *)
Definition shuffle_mask_bytes (k : Z) (sels : list Z) : list Z :=
  let u := Z.of_nat (length sels) in
  flat_map (fun g => flat_map (fun s => map (fun i => shuffle_byte k u s i + g * (k * u)) (zrange k)) sels)
    (zrange (16 / (k * u))).
(** make_shuffle_bytes16_mask<sels...>(mask): a vector of bytes made by make_uint of sixteen
    values (all registers of a long vector get the same ones) *)
Definition make_shuffle_bytes16_mask (A : arch) (s : rsz) (k : Z) (sels : list Z) : res Z :=
  i_make_const A W8 s (shuffle_mask_bytes k sels) 0.

(** An operation of a wider element type implemented on bytes where bytes have smaller
    registers (uint8<N*4>(a) with N*4 bytes in two registers; SIMDPP_VEC_ARRAY_IMPL2/3). *)
Definition as_u8_2 (A : arch) (s : rsz) (f : rsz -> Z -> Z -> res Z) (a b : Z) : res Z :=
  if avail_int A 8 s then f s a b else
  match s with
  | R128 => UB
  | R256 => let* lo := f R128 (lane 128 0 a) (lane 128 0 b) in
            let* hi := f R128 (lane 128 1 a) (lane 128 1 b) in Ok (mm_combine128 lo hi)
  | R512 => let* lo := f R256 (lane 256 0 a) (lane 256 0 b) in
            let* hi := f R256 (lane 256 1 a) (lane 256 1 b) in Ok (mm_combine256 lo hi)
  end.
Definition as_u8_3 (A : arch) (s : rsz) (f : rsz -> Z -> Z -> Z -> res Z) (a b c : Z) : res Z :=
  if avail_int A 8 s then f s a b c else
  match s with
  | R128 => UB
  | R256 => let* lo := f R128 (lane 128 0 a) (lane 128 0 b) (lane 128 0 c) in
            let* hi := f R128 (lane 128 1 a) (lane 128 1 b) (lane 128 1 c) in Ok (mm_combine128 lo hi)
  | R512 => let* lo := f R256 (lane 256 0 a) (lane 256 0 b) (lane 256 0 c) in
            let* hi := f R256 (lane 256 1 a) (lane 256 1 b) (lane 256 1 c) in Ok (mm_combine256 lo hi)
  end.
