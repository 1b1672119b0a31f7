(** test_bits_any, extract_bits_any, extract_bits: detail/insn/test_bits.h, detail/insn/extract_bits.h,
    core/test_bits.h:24-30, core/extract_bits.h:34-99. *)
From Verif Require Export Model.ReduceAdd Model.Floats Model.Unzip Model.Extract Spec.Typed.

(** PTEST: _mm_testz_si128(a, b), _mm256_testz_si256 *)
Definition mm_testz (a b : Z) : bool := Z.land a b =? 0.
(** vec_any_gt of two vectors of unsigned w-bit elements *)
Definition vec_any_gt_u (w a b : Z) : bool := existsb (fun i => lane w i b <? lane w i a) (zrange (128 / w)).
(** BNZ.V *)
Definition msa_test_bnz_v (a : Z) : bool := negb (a =? 0).
(** vsumsws: the saturated sum of the words of a and word 3 of b, in word 3 *)
Definition vec_sums (a b : Z) : Z :=
  pack 32 128 (fun i => if i =? 3 then
    sats 32 (fold_right Z.add 0 (map (fun j => sgn 32 (lane 32 j a)) (zrange 4)) + sgn 32 (lane 32 3 b)) else 0).
(** vrlb: rotate left *)
Definition vec_rl (w : Z) : Z -> Z -> Z := v2 w 128 (fun x c => Z.lor (Z.shiftl x (c mod w)) (Z.shiftr x (w - c mod w))).

(** ---------- test_bits_any ---------- *)
(** detail/null/bitwise.h:157-166: U r = 0; for i: r |= bit_cast<U>(a.el(i)); r != 0 *)
Definition null_test_bits_any (w a : Z) : bool :=
  negb (fold_left (fun r i => Z.lor r (lane w i a)) (zrange (128 / w)) 0 =? 0).
Section R.
  Variables (A : arch) (fp : Z).
  (** 29-55 *)
  Definition test32_128 (a : Z) : res bool :=
    if use_null A then Ok (null_test_bits_any 32 a)
    else if use_sse41 A then Ok (negb (mm_testz a a))
    else if use_sse2 A then Ok (negb (mm_movemask 8 128 (mm_cmpeq 32 128 a 0) =? 0xffff))
    else if use_neon A then
      if use_64 A then
        let* m := i_move_l A I64 R128 1 a in let* r := i_bit_or A W64 R128 a m in
        let* x := i_extract A fp false I64 R128 0 r in Ok (negb (x =? 0))
      else
        let* m := i_move_l A I32 R128 2 a in let* r := i_bit_or A W32 R128 a m in
        let* m := i_move_l A I32 R128 1 r in let* r := i_bit_or A W32 R128 r m in
        let* x := i_extract A fp false I32 R128 0 r in Ok (negb (x =? 0))
    else if use_altivec A then let* z := konst A W32 R128 0 in Ok (vec_any_gt_u 32 a z)
    else if use_msa A then Ok (msa_test_bnz_v a)
    else UB.
  (** 58-73, 112-140 *)
  Definition i_test_bits_any (w : ew) (s : rsz) (a : Z) : res bool :=
    match s with
    | R128 => match w with
              | W64 => if use_vsx207 A then Ok (vec_any_gt_u 64 a 0)
                       else if use_null A || use_altivec A then Ok (null_test_bits_any 64 a)
                       else test32_128 a
              | _ => test32_128 a
              end
    | R256 => if use_avx2 A then Ok (negb (mm_testz a a)) else NotImpl
    | R512 => if (if wb w <=? 16 then use_avx512bw A else use_avx512f A)
              then Ok (negb (mm_test_mask 64 512 a a =? 0)) else NotImpl
    end.
  (** 76-109, 131-134 *)
  Definition f_test_bits_any (d : bool) (s : rsz) (a : Z) : res bool :=
    match s with
    | R128 => if d then if use_vsx206 A then test32_128 a
                        else if use_null A || use_neon32 A || use_altivec A then Ok (null_test_bits_any 64 a)
                        else test32_128 a
              else if use_null A || use_neon_no_flt_sp A then Ok (null_test_bits_any 32 a) else test32_128 a
    | R256 => if use_avx A then Ok (negb (mm_testz a a)) else NotImpl
    | R512 => if use_avx512f A then Ok (negb (mm_test_mask 64 512 a a =? 0)) else NotImpl
    end.
  (** 142-150: r = vec<0>(); for (i = 1; ...) r = bit_or(r, vec(i)) *)
  Fixpoint or_rest (or : Z -> Z -> res Z) (r : Z) (va : vec) : res Z :=
    match va with [] => Ok r | a :: va => let* r := or r a in or_rest or r va end.
  Definition test_bits_any (w : ew) (s : rsz) (va : vec) : res bool :=
    match va with [] => UB | a :: va => let* r := or_rest (i_bit_or A w s) a va in i_test_bits_any w s r end.
  Definition test_bits_any_f (d : bool) (s : rsz) (va : vec) : res bool :=
    match va with [] => UB | a :: va => let* r := or_rest (f_bit_or A d s) a va in f_test_bits_any d s r end.

  (** ---------- extract_bits_any ---------- *)
  (** r = 0; for i: r = (r >> 1) | ((x_i & 1) << top); the values fit in an int, so that the integer conversions change
      nothing; n is the width of r *)
  Definition null_bits (n top : Z) (x : Z -> Z) (cnt : Z) : Z :=
    fold_left (fun r i => wrap n (Z.lor (Z.shiftr r 1) (Z.shiftl (Z.land (x i) 1) top))) (zrange cnt) 0.
  (** 1, 2, 4, ...: the constants of 46, 111, 169 *)
  Definition one_bits (n : Z) : list Z := map (fun i => 2 ^ i) (zrange n).
  (** vadd_u64(low, high), lane u8 0 *)
  Definition neon_sum_low (r2 : Z) : Z := lane 8 0 (wrap 64 (lane 64 0 r2 + lane 64 1 r2)).

  (** 30-80 *)
  Definition i_extract_bits_any8 (a : Z) : res Z :=
    if use_null A then Ok (null_bits 16 15 (fun i => lane 8 i a) 16)
    else if use_sse2 A then Ok (wrap 16 (mm_movemask 8 128 a))
    else if use_neon A then
      let* mask := i_make_const A W8 R128 (one_bits 8) 0 in
      let* a := i_bit_and A W8 R128 a mask in
      let a8 := vpaddlq_u 32 (vpaddlq_u 16 (vpaddlq_u 8 a)) in
      Ok (lane 16 0 (vzip 8 64 false (lane 64 0 a8) (lane 64 1 a8)))
    else if use_altivec A then
      let* mask := i_make_const A W8 R128 (one_bits 8) 0 in
      let* a := i_bit_and A W8 R128 a mask in
      let s := vec_sum4s false 8 a 0 in
      let* shifts := i_make_const A W32 R128 [0; 0; 8; 8] 0 in
      i_extract A fp false I16 R128 6 (vec_sums (vec_sl 32 s shifts) 0)
    else if use_msa A then
      let* mask := i_make_const A W8 R128 (one_bits 8) 0 in
      let* a := i_bit_and A W8 R128 a mask in
      let a16 := msa_hadd false 8 a a in let a32 := msa_hadd false 16 a16 a16 in
      let a := msa_hadd false 32 a32 a32 in
      let* m := i_move_l A I8 R128 7 a in let* a := i_bit_or A W8 R128 a m in
      i_extract A fp false I16 R128 0 a
    else UB.
  (** 94-137 *)
  Definition i_extract_bits_any16 (a : Z) : res Z :=
    let* r :=
    if use_null A then Ok (null_bits 8 7 (fun i => lane 16 i a) 8)
    else if use_avx512bw A then Ok (mm_movepi_mask 16 128 a)
    else if use_sse2 A then
      let* u := i_unzip_lo A I8 R128 a 0 in Ok (mm_movemask 8 128 u)
    else if use_neon A then
      let* mask := i_make_const A W16 R128 (one_bits 8) 0 in
      let* a := i_bit_and A W16 R128 a mask in
      Ok (neon_sum_low (vpaddlq_u 32 (vpaddlq_u 16 a)))
    else if use_altivec A then
      let* mask := i_make_const A W16 R128 (one_bits 8) 0 in
      let* a := i_bit_and A W16 R128 a mask in
      i_extract A fp false I16 R128 6 (vec_sums (vec_sum4s false 8 a 0) 0)
    else if use_msa A then
      let* mask := i_make_const A W16 R128 (one_bits 8) 0 in
      let* a := i_bit_and A W16 R128 a mask in
      let a32 := msa_hadd false 16 a a in let a := msa_hadd false 32 a32 a32 in
      let* m := i_move_l A I16 R128 4 a in let* a := i_bit_or A W16 R128 a m in
      i_extract A fp false I16 R128 0 a
    else UB in Ok (wrap 8 r).
  (** 155-192; uint8_t x = ca.el(i) *)
  Definition i_extract_bits_any32 (a : Z) : res Z :=
    let* r :=
    if use_null A then Ok (null_bits 8 3 (fun i => wrap 8 (lane 32 i a)) 4)
    else if use_sse2 A then Ok (mm_movemask 32 128 a)
    else if use_neon A then
      let* mask := i_make_const A W32 R128 (one_bits 4) 0 in
      let* a := i_bit_and A W32 R128 a mask in
      Ok (neon_sum_low (vpaddlq_u 32 a))
    else if use_altivec A then
      let* mask := i_make_const A W32 R128 (one_bits 4) 0 in
      let* a := i_bit_and A W32 R128 a mask in
      i_extract A fp false I16 R128 6 (vec_sums a 0)
    else if use_msa A then
      let* mask := i_make_const A W32 R128 (one_bits 4) 0 in
      let* a := i_bit_and A W32 R128 a mask in
      let a := msa_hadd false 32 a a in
      let* m := i_move_l A I32 R128 2 a in let* a := i_bit_or A W32 R128 a m in
      i_extract A fp false I32 R128 0 a
    else UB in Ok (wrap 8 r).
  (** 209-245 *)
  Definition i_extract_bits_any64 (a : Z) : res Z :=
    let* r :=
    if scalar64 A then Ok (null_bits 8 1 (fun i => wrap 8 (lane 64 i a)) 2)
    else if use_sse2 A then Ok (mm_movemask 64 128 a)
    else if use_neon A then
      let* mask := i_make_const A W64 R128 [1; 2] 0 in
      let* a := i_bit_and A W64 R128 a mask in
      Ok (neon_sum_low a)
    else if use_altivec A then
      let* mask := i_make_const A W32 R128 [1; 0; 2; 0] 0 in
      let* m := i_bit_and A W32 R128 a mask in
      i_extract A fp false I16 R128 6 (vec_sums m 0)
    else if use_msa A then
      let* mask := i_make_const A W32 R128 [1; 0; 2; 0] 0 in
      let* b := i_bit_and A W32 R128 a mask in
      let b := msa_hadd false 32 b b in
      let* m := i_move_l A I32 R128 2 b in let* b := i_bit_or A W32 R128 b m in
      i_extract A fp false I32 R128 0 b
    else UB in Ok (wrap 8 r).
  Definition any128 (w : ew) : Z -> res Z :=
    match w with W8 => i_extract_bits_any8 | W16 => i_extract_bits_any16 | W32 => i_extract_bits_any32 | W64 => i_extract_bits_any64 end.
  (** lo | (hi << k), both of the unsigned type t, converted to a type of n bits: 90, 151, 205, 263, 314 *)
  Definition two_parts (t : cty) (k n : Z) (lo hi : res Z) : res Z :=
    let* lo := lo in let* hi := hi in
    let* h := c_shl (t, hi) (c_lit k) in let* r := c_or (t, lo) h in Ok (snd (ccast (false, n) r)).
  (** the 256-bit vectors: 82-92, 139-153, 194-207, 247-265 *)
  Definition any256 (w : ew) (va : vec) : res Z :=
    if use_avx2 A then
      match va with
      | [a] => match w with
               | W8 => Ok (wrap 32 (mm_movemask 8 256 a))
               | W16 => if use_avx512bw A then Ok (mm_movepi_mask 16 256 a)
                        else let* u := i_unzip_lo A I8 R256 a 0 in
                             Ok (wrap 16 (mm_movemask 8 128 (mm_extract128 0 (mm_permute4x64 256 0x08 u))))
               | W32 => if use_avx512dq A then Ok (mm_movepi_mask 32 256 a) else Ok (wrap 8 (mm_movemask 32 256 a))
               | W64 => if use_avx512dq A then Ok (mm_movepi_mask 64 256 a) else Ok (wrap 8 (mm_movemask 64 256 a))
               end
      | _ => UB
      end
    else match va with
      | [lo; hi] => match w with
                    | W8 => two_parts c_u16 16 32 (any128 w lo) (any128 w hi)
                    | W16 => two_parts c_u8 8 16 (any128 w lo) (any128 w hi)
                    | W32 => two_parts c_u8 4 8 (any128 w lo) (any128 w hi)
                    | W64 => if scalar64 A then
                               Ok (wrap 8 (Z.lor (Z.lor (Z.lor (Z.land (lane 64 0 lo) 1) (Z.land (lane 64 1 lo) 2))
                                                        (Z.land (lane 64 0 hi) 4)) (Z.land (lane 64 1 hi) 8)))
                             else two_parts c_u8 2 8 (any128 w lo) (any128 w hi)
                    end
      | _ => UB
      end.
  (** core/extract_bits.h:34-80; T = 128 or 256 is the size of the vector *)
  Definition extract_bits_any (w : ew) (T : Z) (va : vec) : res Z :=
    if T =? 128 then match va with [a] => any128 w a | _ => UB end
    else if T =? 256 then any256 w va else NotImpl.

  (** ---------- extract_bits<id>: 267-302 ---------- *)
  Definition steps8 (id : Z) : list Z := map (fun k => k - id) (zrange 8).
  Definition i_extract_bits (id : Z) (a : Z) : res Z :=
    if use_null A then Ok (null_bits 16 15 (fun i => Z.shiftr (lane 8 i a) id) 16)
    else if use_sse2 A then
      let* b := shift_l_t A W16 R128 (7 - id) [a] in match b with [b] => i_extract_bits_any8 b | _ => UB end
    else if use_neon A then
      let* m := i_make_const A W8 R128 (steps8 id) 0 in i_extract_bits_any8 (vshlq_u 8 a m)
    else if use_altivec A then
      let* m := i_make_const A W8 R128 (steps8 id) 0 in i_extract_bits_any8 (vec_rl 8 a m)
    else if use_msa A then
      let* m := i_make_const A W8 R128 (steps8 id) 0 in
      let a_l := msa_sll 8 a m in
      let* m := i_sub A W8 R128 0 m in
      let a_r := msa_srl 8 a m in
      let* a := i_bit_or A W8 R128 a_l a_r in i_extract_bits_any8 a
    else UB.
  (** 304-316, core/extract_bits.h:88-99 *)
  Definition extract_bits_n (id T : Z) (va : vec) : res Z :=
    if T =? 128 then match va with [a] => i_extract_bits id a | _ => UB end
    else if T =? 256 then
      if use_avx2 A then
        match va with
        | [a] => let* b := shift_l_t A W16 R256 (7 - id) [a] in any256 W8 b
        | _ => UB
        end
      else match va with
           | [lo; hi] => two_parts c_u16 16 32 (i_extract_bits id lo) (i_extract_bits id hi)
           | _ => UB
           end
    else NotImpl.
End R.
