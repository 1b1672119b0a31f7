(** reduce_mul: detail/insn/i_reduce_mul.h, core/i_reduce_mul.h.  16-bit elements are multiplied in 32 bits. *)
From Verif Require Export Model.ReduceAdd Model.Mul.

Section R.
  Variables (A : arch) (fp : Z).
  (** ca = a as 32-bit lanes; al = shift_r<16>(ca); ah = shift_l<16>(ca);
      bit_or(mullo_epi16(ca, al), mulhi_epu16 / mulhi_epi16(ca, ah)): 50-57, 216-223 *)
  Definition mul_pairs16 (sg : bool) (s : rsz) (a : Z) : res Z :=
    let* al := i_shift_r_t A false W32 s 16 a in
    let* ah := i_shift_l_t A W32 s 16 a in
    let lo := mm_mullo 16 (rbits s) a al in
    let hi := if sg then mm_mulhi_epi 16 (rbits s) a ah else mm_mulhi_epu 16 (rbits s) a ah in
    i_bit_or A W32 s lo hi.
  (** mul_epu32(r, move4_l<1>(r)) *)
  Definition mul_pairs32 (s : rsz) (r : Z) : res Z :=
    let* m := i_move_l A I32 s 1 r in Ok (mm_mul_epu32 (rbits s) r m).
  (** mul_epu32(r, move4_l<2>(r)), extract<0> *)
  Definition mul_last (r : Z) : res Z :=
    let* m := i_move_l A I32 R128 2 r in i_extract A fp false I32 R128 0 (mm_mul_epu32 128 r m).
  (** mul_epu32(extract128<0>(r), extract128<1>(r)), and the same *)
  Definition mul_last256 (r : Z) : res Z := mul_last (mm_mul_epu32 128 (mm_extract128 0 r) (mm_extract128 1 r)).
  (** mul_lo(r, move4_l<2>(r)), mul_lo(r, move4_l<1>(r)), extract<0> *)
  Definition mul_words (sg : bool) (r : Z) : res Z :=
    let* m := i_move_l A I32 R128 2 r in let* r := i_mul_lo32 A R128 r m in
    let* m := i_move_l A I32 R128 1 r in let* r := i_mul_lo32 A R128 r m in i_extract A fp sg I32 R128 0 r.
  (** mem_block<uint32x4> b = r; b[0] * b[1] * b[2] * b[3] *)
  Definition mul_block (sg : bool) (r : Z) : res Z :=
    let t := sg2 sg (st W32) (ut W32) in
    let* m := mem_block A fp I32 R128 r in
    let* b0 := mb_get fp 32 0 m in let* b1 := mb_get fp 32 1 m in let* b2 := mb_get fp 32 2 m in let* b3 := mb_get fp 32 3 m in
    let* p := c_mul (t, cconv t b0) (t, cconv t b1) in let* p := c_mul p (t, cconv t b2) in let* p := c_mul p (t, cconv t b3) in
    Ok (snd p).
  (** vmull of the halves: 62-63, 228 *)
  Definition neon_mull (sg : bool) (a : Z) : Z :=
    let l := lane 64 0 a in let h := lane 64 1 a in if sg then vmull_s 16 l h else vmull_u 16 l h.
  (** a32 = to_uint32(a); mul_lo(a32.vec<0>(), a32.vec<1>()): 73-74, 238-239 *)
  Definition msa_mull (sg : bool) (a : Z) : res Z :=
    let* v := i_ext_16_32 A sg R128 a in
    let* x := aget v 0 in let* y := aget v 1 in i_mul_lo32 A R128 x y.
  (** move8_l<1>, vec_mule: 68-69, 233-234 *)
  Definition ppc_mull (sg : bool) (a : Z) : res Z :=
    let* a2 := i_move_l A I16 R128 1 a in Ok (if sg then vec_mule_s 16 a2 a else vec_mule_u 16 a2 a).
  (** prod = make_uint(1); for j: prod = mul(prod, h(a.vec(j))) *)
  Definition mulling (s : rsz) (h : Z -> res Z) (a r : Z) : res Z := let* x := h a in Ok (mm_mul_epu32 (rbits s) r x).
  Definition mulling_lo (h : Z -> res Z) (a r : Z) : res Z := let* x := h a in i_mul_lo32 A R128 r x.

  (** ---------- 32-bit: 372-393 (128), 397-404 (256), 409-412 (512), 416-460 ---------- *)
  Definition red_mul32_128 (a : Z) : res Z :=
    if use_null A then null_red1 c_u32 c_u32 c_mul 1 a
    else if use_sse2 A then let* r := mul_pairs32 R128 a in mul_last r
    else if use_neon A || use_msa A then mul_words false a
    else if use_altivec A then mul_block false a
    else UB.
  Definition red_mul32_256 (a : Z) : res Z := if use_avx2 A then let* ra := mul_pairs32 R256 a in mul_last256 ra else NotImpl.
  Definition red_mul32_one (s : rsz) (a : Z) : res Z :=
    match s with
    | R128 => red_mul32_128 a
    | R256 => red_mul32_256 a
    | R512 => if use_avx512f A then
                let* m := i_mul_lo32 A R256 (mm_extract256 0 a) (mm_extract256 1 a) in red_mul32_256 m
              else NotImpl
    end.
  (** r = first; for (j = 1; ...) r *= i_reduce_mul(a.vec(j)), r of type t *)
  Fixpoint mul_each (t : cty) (one : Z -> res Z) (r : cval) (va : vec) : res cval :=
    match va with [] => Ok r | a :: va => let* x := one a in let* p := c_mul r (t, cconv t x) in mul_each t one (ccast t p) va end.
  Definition ppc_multi (sg : bool) (one : Z -> res Z) (va : vec) : res Z :=
    let t := sg2 sg (st W32) (ut W32) in
    match va with
    | [] => UB
    | a :: va => let* x := one a in let* r := mul_each t one (t, cconv t x) va in Ok (snd r)
    end.
  Definition red_mul32_multi (s : rsz) (va : vec) : res Z :=
    if use_null A then null_redN c_u32 c_u32 c_mul 1 va
    else if use_avx2 A then
      if use_avx512f A then NotImpl (* uint32x8 ai = a.vec(j), a register of 512 bits *)
      else let* one := konst A W32 R256 1 in
           let* prod := gather (mulling R256 (mul_pairs32 R256)) one va in mul_last256 prod
    else if use_sse2 A then
      let* one := konst A W32 R128 1 in
      let* prod := gather (mulling R128 (mul_pairs32 R128)) one va in mul_last prod
    else if use_neon A || use_msa A then
      let* one := konst A W32 R128 1 in
      let* prod := gather (mulling_lo (fun a => Ok a)) one va in mul_words false prod
    else if use_altivec A then ppc_multi false red_mul32_128 va
    else UB.
  Definition reduce_mul32 (s : rsz) (va : vec) : res Z :=
    match va with [a] => red_mul32_one s a | _ => red_mul32_multi s va end.

  (** ---------- 16-bit: unsigned 41-201, signed 207-366 ---------- *)
  Definition red_mul16_128 (sg : bool) (a : Z) : res Z :=
    if use_null A then (if sg then null_red1 c_i32 c_i16 c_mul 1 a else null_red1 c_u32 c_u16 c_mul 1 a)
    else if use_sse2 A then
      let* r := mul_pairs16 sg R128 a in let* r := mul_pairs32 R128 r in mul_last r
    else if use_neon A then mul_words sg (neon_mull sg a)
    else if use_altivec A then let* r := ppc_mull sg a in mul_block sg r
    else if use_msa A then let* r := msa_mull sg a in mul_words sg r
    else UB.
  Definition red_mul16_one (sg : bool) (s : rsz) (a : Z) : res Z :=
    match s with
    | R128 => red_mul16_128 sg a
    | R256 => if use_avx2 A then
                let* r := mul_pairs16 sg R256 a in let* r := mul_pairs32 R256 r in mul_last256 r
              else NotImpl
    | R512 => if use_avx512bw A then let* r := mul_pairs16 sg R512 a in red_mul32_one R512 r else NotImpl
    end.
  Definition pairs16_32 (sg : bool) (s : rsz) (a : Z) : res Z := let* r := mul_pairs16 sg s a in mul_pairs32 s r.
  Definition red_mul16_multi (sg : bool) (s : rsz) (va : vec) : res Z :=
    if use_null A then null_redN c_u32 (sg2 sg (st W16) (ut W16)) c_mul 1 va
    else if use_avx512bw A then
      let* one := konst A W32 R512 1 in
      let* prod := gather (mulling R512 (pairs16_32 sg R512)) one va in red_mul32_one R512 prod
    else if use_avx2 A then
      let* one := konst A W32 R256 1 in
      let* prod := gather (mulling R256 (pairs16_32 sg R256)) one va in mul_last256 prod
    else if use_sse2 A then
      let* one := konst A W32 R128 1 in
      let* prod := gather (mulling R128 (pairs16_32 sg R128)) one va in mul_last prod
    else if use_neon A then
      let* one := konst A W32 R128 1 in
      let* prod := gather (mulling_lo (fun a => Ok (neon_mull sg a))) one va in mul_words sg prod
    else if use_altivec A then ppc_multi sg (red_mul16_128 sg) va
    else if use_msa A then
      let* one := konst A W32 R128 1 in
      let* prod := gather (mulling_lo (msa_mull sg)) one va in mul_words sg prod
    else UB.
  Definition reduce_mul16 (sg : bool) (s : rsz) (va : vec) : res Z :=
    match va with [a] => red_mul16_one sg s a | _ => red_mul16_multi sg s va end.

  (** core/i_reduce_mul.h:30-52; the result is an int32_t or uint32_t *)
  Definition reduce_mul (sg : bool) (w : ew) (s : rsz) (va : vec) : res Z :=
    let* r := match w with
              | W16 => reduce_mul16 sg s va
              | W32 => reduce_mul32 s va
              | _ => NotImpl (* no such overload *)
              end in Ok (cconv (sg, 32) r).
End R.
