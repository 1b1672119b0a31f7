(** permute_zbytes16, shuffle_zbytes16 and the public byte shuffles of all element types:
    simdpp/detail/insn/{permute,shuffle}_zbytes16.h,
    simdpp/core/{permute,shuffle}_{,z}bytes16.h. *)
From Verif Require Export Model.Bytes Model.Cmp Model.Blend Model.Shift Base.Vec.

(** permute_zbytes16.h: 128 bits 31-58; 256 bits 64-70; 512 bits 72-77 *)
Definition i_permute_zbytes16 (A : arch) (s : rsz) (a m : Z) : res Z :=
  match s with
  | R128 =>
      if use_null A then Ok (pack 8 128 (fun i =>
        let j := Z.land (lane 8 i m) 0x0f in
        let zero := negb (Z.land (lane 8 i m) 0x80 =? 0) in
        if zero then 0 else lane 8 j a))
      else if use_ssse3 A || use_neon A then i_permute_bytes16 A R128 a m
      else if use_altivec A then
        let* zm := i_shift_r_t A true W8 R128 7 m in
        let* a0 := i_permute_bytes16 A R128 a m in
        i_bit_andnot A W8 R128 a0 zm
      else if use_msa A then Ok (msa_vshf 8 m a a) else NotImpl
  | R256 => if use_avx2 A then Ok (mm_shuffle_epi8 256 a m) else NotImpl
  | R512 => if use_avx512bw A then Ok (mm_shuffle_epi8 512 a m) else NotImpl
  end.
(** shuffle_zbytes16.h: 128 bits 35-77; 256 bits 83-96; 512 bits 98-110 *)
Definition i_shuffle_zbytes16 (A : arch) (s : rsz) (a b m : Z) : res Z :=
  let blendv R :=
    let sel := mm_sll 16 R m 3 in
    mm_blendv_epi8 R (mm_shuffle_epi8 R a m) (mm_shuffle_epi8 R b m) sel in
  match s with
  | R128 =>
      if use_null A then Ok (pack 8 128 (fun i =>
        let j := Z.land (lane 8 i m) 0x0f in
        let which := lane 8 i m <? 0x10 in
        let zero := negb (Z.land (lane 8 i m) 0x80 =? 0) in
        if zero then 0 else if which then lane 8 j a else lane 8 j b))
      else if use_xop A then Ok (mm_perm_epi8 a b m)
      else if use_sse41 A then Ok (blendv 128)
      else if use_ssse3 A then
        let* c1 := konst A W8 R128 0x1f in
        let* lo := i_bit_and A W8 R128 m c1 in
        let* c2 := konst A W8 R128 0x10 in
        let* select_a := i_cmp_lt A true W8 R128 lo c2 in
        i_blend_m A W8 R128 (mm_shuffle_epi8 128 a m) (mm_shuffle_epi8 128 b m) select_a
      else if use_neon A then i_shuffle_bytes16 A R128 a b m
      else if use_altivec A then
        let* zm := i_shift_r_t A true W8 R128 7 m in
        let* a0 := i_shuffle_bytes16 A R128 a b m in
        i_bit_andnot A W8 R128 a0 zm
      else if use_msa A then Ok (msa_vshf 8 m b a) else NotImpl
  | R256 => if use_avx2 A then Ok (blendv 256) else NotImpl
  | R512 => if use_avx512bw A then
      let* c := konst A W8 R512 0x10 in
      let sel := mm_test_mask 8 512 m c in
      Ok (mm_mask_blend 8 512 sel (mm_shuffle_epi8 512 a m) (mm_shuffle_epi8 512 b m)) else NotImpl
  end.

(** core/permute_bytes16.h:27-57, core/shuffle_bytes16.h:28-66, core/permute_zbytes16.h:28-58,
    core/shuffle_zbytes16.h:29-67: vectors of any element type are reinterpreted as bytes
    (insn/permute_bytes16.h:70-108, shuffle_bytes16.h:124-152 and the trailers of the
    z-files) and processed register by register. *)
Definition permute_bytes16 A (s : rsz) := vec_impl2 (as_u8_2 A s (i_permute_bytes16 A)).
Definition shuffle_bytes16 A (s : rsz) := vec_impl3 (as_u8_3 A s (i_shuffle_bytes16 A)).
Definition permute_zbytes16 A (s : rsz) := vec_impl2 (as_u8_2 A s (i_permute_zbytes16 A)).
Definition shuffle_zbytes16 A (s : rsz) := vec_impl3 (as_u8_3 A s (i_shuffle_zbytes16 A)).
