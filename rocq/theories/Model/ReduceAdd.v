(** reduce_add of 8 and 16-bit elements: detail/insn/i_reduce_add.h:46-551, core/i_reduce_add.h:31-53.
    The result has twice as many bits as an element. *)
From Verif Require Export Model.Reduce.

(** the value of lane i of w bits *)
Definition vlane (sg : bool) (w i a : Z) : Z := if sg then sgn w (lane w i a) else lane w i a.
(** the sum of the k lanes of w bits of each k*w-bit lane: VPADDL (k = 2), VPHADDUBQ, VPHADDBQ,
    VPHADDUWQ, VPHADDWQ (k*w = 64) *)
Definition addl (sg : bool) (w k R a : Z) : Z :=
  pack (k * w) R (fun i => fold_right Z.add 0 (map (fun j => vlane sg w (k * i + j) a) (zrange k))).
(** HADD_S.df, HADD_U.df: odd lanes of a plus even lanes of b *)
Definition msa_hadd (sg : bool) (w a b : Z) : Z :=
  pack (2 * w) 128 (fun i => vlane sg w (2 * i + 1) a + vlane sg w (2 * i) b).
(** PMADDWD *)
Definition mm_madd_epi16 (R a b : Z) : Z :=
  pack 32 R (fun i => sgn 16 (lane 16 (2 * i) a) * sgn 16 (lane 16 (2 * i) b) +
                      sgn 16 (lane 16 (2 * i + 1) a) * sgn 16 (lane 16 (2 * i + 1) b)).
(** vsum4ubs, vsum4sbs, vsum4shs: the lanes of each word of a plus the word of b, saturated *)
Definition vec_sum4s (sg : bool) (w a b : Z) : Z :=
  pack 32 128 (fun i => (if sg then sats 32 else satu 32)
    (fold_right Z.add 0 (map (fun j => vlane sg w (32 / w * i + j) a) (zrange (32 / w))) + vlane sg 32 i b)).

Section R.
  Variables (A : arch) (fp : Z).

  (** r = make_zero(); for j: r = add(r, h(a.vec(j))), or r = h(a.vec(j), r) *)
  Fixpoint gather (h : Z -> Z -> res Z) (r : Z) (va : vec) : res Z :=
    match va with [] => Ok r | a :: va => let* r := h a r in gather h r va end.
  Definition adding (w : ew) (s : rsz) (h : Z -> res Z) (a r : Z) : res Z := let* x := h a in i_add A w s r x.
  (** extract<0>(r) + extract<4>(r) of a vector of 16-bit elements *)
  Definition lanes04 (sg : bool) (r : Z) : res Z :=
    let* x := i_extract A fp sg I16 R128 0 r in let* y := i_extract A fp sg I16 R128 4 r in Ok (x + y).
  (** sum = add(sum, move4_l<2>(sum)); extract<0>(sum) *)
  Definition low_words (sg : bool) (r : Z) : res Z :=
    let* m := i_move_l A I32 R128 2 r in let* r := i_add A W32 R128 r m in i_extract A fp sg I32 R128 0 r.
  (** add(sum, move4_l<2>(sum)); add(sum, move4_l<1>(sum)); extract<0>(sum) *)
  Definition all_words (sg : bool) (r : Z) : res Z :=
    let* m := i_move_l A I32 R128 2 r in let* r := i_add A W32 R128 r m in
    let* m := i_move_l A I32 R128 1 r in let* r := i_add A W32 R128 r m in i_extract A fp sg I32 R128 0 r.
  (** vpaddlq up to 64 bits, vadd_u32(low, high), lane 0 *)
  Definition neon_fin8 (sg : bool) (r : Z) : res Z :=
    let a4 := addl sg 32 2 128 (addl sg 16 2 128 r) in Ok (cconv (sg, 32) (lane 32 0 a4 + lane 32 2 a4)).
  Definition neon_fin16 (sg : bool) (r : Z) : res Z :=
    let a3 := addl sg 32 2 128 r in Ok (cconv (sg, 32) (lane 32 0 a3 + lane 32 2 a3)).
  Definition msa_fin8 (sg : bool) (r : Z) : res Z :=
    let s32 := msa_hadd sg 16 r r in low_words sg (msa_hadd sg 32 s32 s32).
  Definition msa_fin16 (sg : bool) (r : Z) : res Z := low_words sg (msa_hadd sg 32 r r).
  (** bit_xor(a, 0x80..) of all registers *)
  Fixpoint flipall (w : ew) (s : rsz) (va : vec) : res vec :=
    match va with [] => Ok [] | a :: va => let* c := flip A w s a in let* cs := flipall w s va in Ok (c :: cs) end.
  (** r + x where r, x are unsigned int *)
  Definition plus32 (r x : Z) : Z := wrap 32 (r + x).

  (** ---------- uint8: 46-81 (128), 84-99 (256, 512), 102-165 ---------- *)
  Definition sad8 (s : rsz) (a : Z) : res Z := Ok (mm_sad_epu8 (rbits s) a 0).
  Definition red_add_u8_128 (a : Z) : res Z :=
    if use_null A then null_red1 c_u16 c_u8 c_add 1 a
    else if use_xop A then lanes04 false (addl false 8 8 128 a)
    else if use_sse2 A then lanes04 false (mm_sad_epu8 128 a 0)
    else if use_neon A then neon_fin8 false (addl false 8 2 128 a)
    else if use_altivec A then all_words false (vec_sum4s false 8 a 0)
    else if use_msa A then msa_fin8 false (msa_hadd false 8 a a)
    else UB.
  Definition red_add_u8_one (s : rsz) (a : Z) : res Z :=
    match s with
    | R128 => red_add_u8_128 a
    | R256 => if use_avx2 A then
                let sum2 := mm_sad_epu8 256 a 0 in
                let* sum := i_add A W16 R128 (mm_extract128 0 sum2) (mm_extract128 1 sum2) in lanes04 false sum
              else NotImpl
    | R512 => if use_avx512bw A then red_add1 A fp W64 R512 (mm_sad_epu8 512 a 0) else NotImpl
    end.
  Definition red_add_u8_multi (s : rsz) (va : vec) : res Z :=
    if use_null A then null_redN c_u16 c_u8 c_add 0 va
    else if use_avx512bw A then NotImpl (* a.native() of a vector of several registers *)
    else if use_avx2 A then
      let* r := gather (adding W16 R256 (sad8 R256)) 0 va in
      let* rl := i_add A W16 R128 (mm_extract128 0 r) (mm_extract128 1 r) in lanes04 false rl
    else if use_sse2 A then
      let* r := gather (adding W16 R128 (fun a => if use_xop A then Ok (addl false 8 8 128 a) else sad8 R128 a)) 0 va in lanes04 false r
    else if use_neon A then let* r := gather (adding W16 R128 (fun a => Ok (addl false 8 2 128 a))) 0 va in neon_fin8 false r
    else if use_altivec A then let* r := gather (fun a r => Ok (vec_sum4s false 8 a r)) 0 va in all_words false r
    else if use_msa A then let* r := gather (adding W16 R128 (fun a => Ok (msa_hadd false 8 a a))) 0 va in msa_fin8 false r
    else UB.
  Definition reduce_add_u8 (s : rsz) (va : vec) : res Z :=
    let* r := match va with [a] => red_add_u8_one s a | _ => red_add_u8_multi s va end in Ok (wrap 16 r).

  (** ---------- int8: 171-207 (128), 210-222 (256, 512), 225-284 ---------- *)
  (** i_reduce_add(uint8<N>(bit_xor(a, 0x80))) - a.length*0x80 *)
  Definition red_add_s8_flip (s : rsz) (va : vec) : res Z :=
    let* vc := flipall W8 s va in
    let* r := reduce_add_u8 s vc in
    Ok (plus32 r (- (Z.of_nat (length va) * (rbits s / 8) * 0x80))).
  Definition red_add_s8_one (s : rsz) (a : Z) : res Z :=
    match s with
    | R128 =>
        if use_null A then null_red1 c_i16 c_i8 c_add 1 a
        else if use_xop A then lanes04 false (addl true 8 8 128 a)
        else if use_sse2 A then red_add_s8_flip R128 [a]
        else if use_neon A then neon_fin8 true (addl true 8 2 128 a)
        else if use_altivec A then all_words true (vec_sum4s true 8 a 0)
        else if use_msa A then msa_fin8 true (msa_hadd true 8 a a)
        else UB
    | R256 => if use_avx2 A then red_add_s8_flip s [a] else NotImpl
    | R512 => if use_avx512bw A then red_add_s8_flip s [a] else NotImpl
    end.
  Definition red_add_s8_multi (s : rsz) (va : vec) : res Z :=
    if use_null A then null_redN c_u16 c_i8 c_add 0 va
    else if use_avx512bw A || use_avx2 A then red_add_s8_flip s va
    else if use_xop A then let* r := gather (adding W16 R128 (fun a => Ok (addl true 8 8 128 a))) 0 va in lanes04 true r
    else if use_sse2 A then red_add_s8_flip s va
    else if use_neon A then let* r := gather (adding W16 R128 (fun a => Ok (addl true 8 2 128 a))) 0 va in neon_fin8 true r
    else if use_altivec A then let* r := gather (fun a r => Ok (vec_sum4s true 8 a r)) 0 va in all_words true r
    else if use_msa A then let* r := gather (adding W16 R128 (fun a => Ok (msa_hadd true 8 a a))) 0 va in msa_fin8 true r
    else UB.
  Definition reduce_add_s8 (s : rsz) (va : vec) : res Z :=
    let* r := match va with [a] => red_add_s8_one s a | _ => red_add_s8_multi s va end in Ok (sgn 16 r).

  (** ---------- uint16: 290-328 (128), 330-352 (256, 512), 354-424 ---------- *)
  (** ones = make_uint(1); ca = bit_xor(a, 0x8000); madd_epi16(ca, ones) *)
  Definition madd_flip (s : rsz) (a : Z) : res Z :=
    let* ones := konst A W16 s 1 in let* ca := flip A W16 s a in Ok (mm_madd_epi16 (rbits s) ca ones).
  Definition madd1 (s : rsz) (a : Z) : res Z := let* ones := konst A W16 s 1 in Ok (mm_madd_epi16 (rbits s) a ones).
  (** 0x8000 * a.length *)
  Definition bias16 (s : rsz) (va : vec) : Z := 0x8000 * (Z.of_nat (length va) * (rbits s / 16)).
  Definition red_add_u16_one (s : rsz) (a : Z) : res Z :=
    match s with
    | R128 =>
        if use_null A then null_red1 c_u32 c_u16 c_add 1 a
        else if use_xop A then low_words false (addl false 16 4 128 a)
        else if use_sse2 A then
          let* sum := madd_flip R128 a in let* r := all_words false sum in Ok (plus32 r (bias16 s [a]))
        else if use_neon A then neon_fin16 false (addl false 16 2 128 a)
        else if use_altivec A then
          let* ca := flip A W16 R128 a in
          let* r := all_words true (vec_sum4s true 16 ca 0) in Ok (plus32 r (bias16 s [a]))
        else if use_msa A then msa_fin16 false (msa_hadd false 16 a a)
        else UB
    | _ => if_wide A I16 s (let* sum := madd_flip s a in let* r := red_add1 A fp W32 s sum in Ok (plus32 r (bias16 s [a])))
    end.
  Definition red_add_u16_multi (s : rsz) (va : vec) : res Z :=
    if use_null A then null_redN c_u32 c_u16 c_add 0 va
    else if use_avx512bw A || use_avx2 A then
      if_wide A I16 s (let* sum := gather (adding W32 s (madd_flip s)) 0 va in
                       let* r := red_add1 A fp W32 s sum in Ok (plus32 r (bias16 s va)))
    else if use_xop A then let* sum := gather (adding W32 R128 (fun a => Ok (addl false 16 4 128 a))) 0 va in low_words false sum
    else if use_sse2 A then
      let* sum := gather (adding W32 R128 (madd_flip R128)) 0 va in let* r := all_words false sum in Ok (plus32 r (bias16 s va))
    else if use_neon A then let* sum := gather (adding W32 R128 (fun a => Ok (addl false 16 2 128 a))) 0 va in neon_fin16 false sum
    else if use_altivec A then
      let* sum := gather (fun a r => let* ca := flip A W16 R128 a in Ok (vec_sum4s true 16 ca r)) 0 va in
      let* r := all_words true sum in Ok (plus32 r (bias16 s va))
    else if use_msa A then let* r := gather (adding W32 R128 (fun a => Ok (msa_hadd false 16 a a))) 0 va in msa_fin16 false r
    else UB.
  Definition reduce_add_u16 (s : rsz) (va : vec) : res Z :=
    let* r := match va with [a] => red_add_u16_one s a | _ => red_add_u16_multi s va end in Ok (wrap 32 r).

  (** ---------- int16: 430-462 (128), 464-481 (256, 512), 483-551 ---------- *)
  Definition red_add_s16_one (s : rsz) (a : Z) : res Z :=
    match s with
    | R128 =>
        if use_null A then null_red1 c_i32 c_i16 c_add 1 a
        else if use_xop A then low_words true (addl true 16 4 128 a)
        else if use_sse2 A then let* sum := madd1 R128 a in red_add1 A fp W32 R128 sum
        else if use_neon A then neon_fin16 true (addl true 16 2 128 a)
        else if use_altivec A then all_words true (vec_sum4s true 16 a 0)
        else if use_msa A then msa_fin16 true (msa_hadd true 16 a a)
        else UB
    | _ => if_wide A I16 s (let* sum := madd1 s a in red_add1 A fp W32 s sum)
    end.
  Definition red_add_s16_multi (s : rsz) (va : vec) : res Z :=
    if use_null A then null_redN c_i32 c_i16 c_add 0 va
    else if use_avx512bw A || use_avx2 A then
      if_wide A I16 s (let* sum := gather (adding W32 s (madd1 s)) 0 va in red_add1 A fp W32 s sum)
    else if use_xop A then let* sum := gather (adding W32 R128 (fun a => Ok (addl true 16 4 128 a))) 0 va in low_words true sum
    else if use_sse2 A then let* sum := gather (adding W32 R128 (madd1 R128)) 0 va in red_add1 A fp W32 R128 sum
    else if use_neon A then
      let* sum := gather (adding W32 R128 (fun a => Ok (addl true 16 2 128 a))) 0 va in red_add1 A fp W32 R128 sum
    else if use_altivec A then
      let* sum := gather (fun a r => Ok (vec_sum4s true 16 a r)) 0 va in red_add1 A fp W32 R128 sum
    else if use_msa A then let* r := gather (adding W32 R128 (fun a => Ok (msa_hadd true 16 a a))) 0 va in msa_fin16 true r
    else UB.
  Definition reduce_add_s16 (s : rsz) (va : vec) : res Z :=
    let* r := match va with [a] => red_add_s16_one s a | _ => red_add_s16_multi s va end in Ok (sgn 32 r).

  (** core/i_reduce_add.h:31-79 *)
  Definition reduce_add (sg : bool) (w : ew) (s : rsz) (va : vec) : res Z :=
    match w, sg with
    | W8, false => reduce_add_u8 s va
    | W8, true => reduce_add_s8 s va
    | W16, false => reduce_add_u16 s va
    | W16, true => reduce_add_s16 s va
    | _, _ => reduce_add_32_64 A fp sg w s va
    end.
End R.
