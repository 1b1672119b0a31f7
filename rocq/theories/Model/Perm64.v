(** permute4 and shuffle4x2 of 64-bit elements: simdpp/detail/insn/permute4.h:195-281,
    insn/shuffle_emul.h, insn/shuffle4x2.h:33-45, 104-137, 196-229,
    detail/shuffle/sse_float64_4x2.h. *)
From Verif Require Export Model.Shuf64 Model.Shuf2x2 Model.Convert.

(** ------------------- permute4 ------------------- *)
(** shuffle_emul.h:27-49 permute_64x4_half<s0,s1>(a0, a1); [e]: I64 or F64 *)
Definition permute_64x4_half (A : arch) (e : et) (s0 s1 a0 a1 : Z) : res Z :=
  let p2 x y a := i_permute2 A e R128 x y a in
  let s1_ x y a b := i_shuffle1 A e R128 x y a b in
  match s0 * 4 + s1 with
  | 1 => Ok a0
  | 2 => s1_ 0 0 a0 a1
  | 3 => s1_ 0 1 a0 a1
  | 4 => p2 1 0 a0
  | 5 => p2 1 1 a0
  | 6 => s1_ 1 0 a0 a1
  | 7 => s1_ 1 1 a0 a1
  | 8 => s1_ 0 0 a1 a0
  | 9 => s1_ 0 1 a1 a0
  | 10 => p2 0 0 a1
  | 11 => Ok a1
  | 12 => s1_ 1 0 a1 a0
  | 13 => s1_ 1 1 a1 a0
  | 14 => p2 1 0 a1
  | 15 => p2 1 1 a1
  | _ => p2 0 0 a0
  end.
(** shuffle_emul.h:54-76 permute_emul on one 256-bit register (AVX without AVX2, float64<4>) *)
Definition permute_emul256 (A : arch) (s0 s1 s2 s3 a : Z) : res Z :=
  let '(a0, a1) := i_split1 R256 a in
  let* r0 := permute_64x4_half A F64 s0 s1 a0 a1 in
  let* r1 := permute_64x4_half A F64 s2 s3 a0 a1 in
  Ok (mm_combine128 r0 r1).
(** permute4.h f64: 240-249 (registers of 256 bits), 259-264 *)
Definition i_permute4_f64 (A : arch) (s : rsz) (s0 s1 s2 s3 a : Z) : res Z :=
  match s with
  | R128 => UB
  | R256 => if use_avx2 A then Ok (mm_permute4x64 256 (mask_4x4 s0 s1 s2 s3) a)
            else if use_avx A then permute_emul256 A s0 s1 s2 s3 a else NotImpl
  | R512 => if use_avx512f A then Ok (mm_permute4x64 512 (mask_4x4 s0 s1 s2 s3) a) else NotImpl
  end.
(** the element copies of permute4.h:204-209 and 249-254: r.vec<i>().el(j) = a.vec(s/2).el(s%2) *)
Definition copy_pair (s0 s1 a0 a1 : Z) : Z :=
  let v s := if s / 2 =? 0 then a0 else a1 in
  pack 64 128 (fun i => if i =? 0 then lane 64 (s0 mod 2) (v s0) else lane 64 (s1 mod 2) (v s1)).
(** two 128-bit registers: permute4.h u64x4 195-210, f64x4 240-257 *)
Definition permute4_pair (A : arch) (e : et) (s0 s1 s2 s3 a0 a1 : Z) : res vec :=
  let emul := if match e with F64 => use_sse2 A || use_neon64 A || use_vsx206 A || use_msa A
                            | _ => use_sse2 A || use_neon A || use_vsx207 A || use_msa A end then true else false in
  if emul then
    let* r0 := permute_64x4_half A e s0 s1 a0 a1 in
    let* r1 := permute_64x4_half A e s2 s3 a0 a1 in
    Ok [r0; r1]
  else if use_null A || use_altivec A || match e with F64 => use_neon A | _ => false end then
    Ok [copy_pair s0 s1 a0 a1; copy_pair s2 s3 a0 a1]
  else UB.
(** The loop [for (i = 0; i < vec_length; i += 2) { r.vec(i*2) = ..; r.vec(i*2+1) = ..; }] of
    permute4.h:228-232, 273-277 and shuffle4x2.h:130-135, 222-227; [body j]: the two values
    computed from the registers j and j+1 (j = i*2) *)
Fixpoint loop64 (fuel i n : nat) (body : nat -> res (Z * Z)) (r : vec) : res vec :=
  match fuel with
  | O => Ok r
  | S f =>
      if (i <? n)%nat then
        let* xy := body (i * 2)%nat in
        let* r := aset r (i * 2) (fst xy) in
        let* r := aset r (i * 2 + 1) (snd xy) in
        loop64 f (i + 2) n body r
      else Ok r
  end.
(** permute4.h u64<N> 222-236, f64<N> 267-281, when the registers have 128 bits.  [junk]:
    content of the registers of the uninitialised result. *)
Definition permute4_loop (A : arch) (e : et) (junk s0 s1 s2 s3 : Z) (va : vec) : res vec :=
  loop64 (length va) 0 (length va) (fun j =>
    let* a0 := aget va j in let* a1 := aget va (j + 1) in
    let* x := permute_64x4_half A e s0 s1 a0 a1 in
    let* y := permute_64x4_half A e s2 s3 a0 a1 in Ok (x, y)) (repeat junk (length va)).
(** core/permute4.h:130-136; [s]: the registers of the vector type *)
Definition permute4_64 (A : arch) (e : et) (s : rsz) (junk s0 s1 s2 s3 : Z) (va : vec) : res vec :=
  match s with
  | R128 => match va with
            | [a0; a1] => permute4_pair A e s0 s1 s2 s3 a0 a1
            | _ => permute4_loop A e junk s0 s1 s2 s3 va
            end
  | _ => vec_impl1 (match e with F64 => i_permute4_f64 A s s0 s1 s2 s3
                               | _ => i_permute4_64 A s s0 s1 s2 s3 end) va
  end.

(** ------------------- shuffle4x2 ------------------- *)
(** shuffle4x2.h:35-45, sse_float64_4x2.h:217-229 i_shuffle_emul_64x4_half *)
Definition shuffle_64x4_half (A : arch) (e : et) (s0 s1 a0 a1 b0 b1 : Z) : res Z :=
  let h s := if s <? 2 then a0 else if s <? 4 then a1 else if s <? 6 then b0 else b1 in
  i_shuffle2x2 A e R128 (s0 mod 2) (s1 mod 2 + 2) (h s0) (h s1).
(** sse_float64_4x2.h:33-253.  [u], [v]: the undefined upper halves of the registers cast by
    _mm512_castpd256_pd512 (line 185-187). *)
Definition i_shuffle4x2_f64 (A : arch) (s : rsz) (u v s0 s1 s2 s3 a b : Z) : res Z :=
  let R := rbits s in
  let bl x := if x <? 4 then 0 else 1 in
  let lanemask := bl s0 + 2 * bl s1 + 4 * bl s2 + 8 * bl s3 in
  let p x := if x <? 4 then x else x + 4 in
  let idx (l : list Z) := pack 64 512 (fun i => nth (Z.to_nat (i mod Z.of_nat (length l))) l 0) in
  let up j x := pack 256 512 (fun i => if i =? 0 then x else j) in
  let avx12 := negb (use_avx2 A) in
  let run :=
    if (s0 =? 0) && (s1 =? 4) && (s2 =? 2) && (s3 =? 6) then Ok (mm_unpacklo 64 R a b)
    else if (s0 =? 4) && (s1 =? 0) && (s2 =? 6) && (s3 =? 2) then Ok (mm_unpacklo 64 R b a)
    else if (s0 =? 1) && (s1 =? 5) && (s2 =? 3) && (s3 =? 7) then Ok (mm_unpackhi 64 R a b)
    else if (s0 =? 5) && (s1 =? 1) && (s2 =? 7) && (s3 =? 3) then Ok (mm_unpackhi 64 R b a)
    else if ((s0 =? 0) || (s0 =? 4)) && ((s1 =? 1) || (s1 =? 5)) && ((s2 =? 2) || (s2 =? 6)) && ((s3 =? 3) || (s3 =? 7)) then
      if R =? 256 then Ok (mm_blend 64 256 lanemask a b) else Ok (mm_blend 64 512 (lanemask + 16 * lanemask) a b)
    else if use_avx512f A then
      if R =? 256 then Ok (lane 256 0 (mm_permutex2var 64 512 (up u a) (idx [s0; s1; s2; s3]) (up v b)))
      else Ok (mm_permutex2var 64 512 a (idx [p s0; p s1; p s2; p s3; p s0 + 4; p s1 + 4; p s2 + 4; p s3 + 4]) b)
    else if use_avx2 A then
      if (s0 =? 1) && (s1 =? 4) && (s2 =? 3) && (s3 =? 6) then Ok (mm_shuffle_pd 256 (mask_2x2_2 s0 (s1 - 4)) a b)
      else let m := mask_4x4 (s0 mod 4) (s1 mod 4) (s2 mod 4) (s3 mod 4) in
           Ok (mm_blend 64 256 lanemask (mm_permute4x64 256 m a) (mm_permute4x64 256 m b))
    else
      let mixed := negb (s0 mod 2 =? s2 mod 2) || negb (s1 mod 2 =? s3 mod 2) in
      let a1 := mm_extract128 0 a in let b1 := mm_extract128 0 b in
      let ins t x := mm_combine128 x (mm_extract128 1 t) in
      if (s0 / 2 =? 0) && (s1 / 2 =? 2) && (s2 / 2 =? 1) && (s3 / 2 =? 3) then
        if mixed then
          Ok (ins (mm_shuffle_pd 256 (mask_2x2_2 (s2 - 2) (s3 - 6)) a b) (mm_shuffle_pd 128 (mask_2x2 s0 (s1 - 4)) a1 b1))
        else Ok (mm_shuffle_pd 256 (mask_2x2_2 s0 (s1 - 4)) a b)
      else if (s0 / 2 =? 2) && (s1 / 2 =? 0) && (s2 / 2 =? 3) && (s3 / 2 =? 1) then
        if mixed then
          Ok (ins (mm_shuffle_pd 256 (mask_2x2_2 (s3 - 2) (s2 - 6)) b a) (mm_shuffle_pd 128 (mask_2x2 s1 (s0 - 4)) b1 a1))
        else Ok (mm_shuffle_pd 256 (mask_2x2_2 s1 (s0 - 4)) b a)
      else
        let '(a0, a1) := i_split1 R256 a in let '(b0, b1) := i_split1 R256 b in
        let* r0 := shuffle_64x4_half A F64 s0 s1 a0 a1 b0 b1 in
        let* r1 := shuffle_64x4_half A F64 s2 s3 a0 a1 b0 b1 in
        Ok (mm_combine128 r0 r1) in
  match s with
  | R128 => NotImpl
  | R256 => if use_avx A then run else NotImpl
  | R512 => if use_avx512f A then run else NotImpl
  end.
(** shuffle4x2.h f64<N> 123-137, u64<N> 215-229 with registers of 128 bits *)
Definition shuffle4x2_loop (A : arch) (e : et) (junk s0 s1 s2 s3 : Z) (va vb : vec) : res vec :=
  loop64 (length va) 0 (length va) (fun j =>
    let* a0 := aget va j in let* a1 := aget va (j + 1) in
    let* b0 := aget vb j in let* b1 := aget vb (j + 1) in
    let* x := shuffle_64x4_half A e s0 s1 a0 a1 b0 b1 in
    let* y := shuffle_64x4_half A e s2 s3 a0 a1 b0 b1 in Ok (x, y)) (repeat junk (length va)).
(** core/shuffle4x2.h:60-75 *)
Definition shuffle4x2_64 (A : arch) (e : et) (s : rsz) (junk u v s0 s1 s2 s3 : Z) (va vb : vec) : res vec :=
  if use_null A || use_sse2 A || use_neon A then
    match s with
    | R128 => shuffle4x2_loop A e junk s0 s1 s2 s3 va vb
    | _ => vec_impl2 (match e with F64 => i_shuffle4x2_f64 A s u v s0 s1 s2 s3
                                 | _ => i_shuffle4x2_u64 A s s0 s1 s2 s3 end) va vb
    end
  else NotImpl.
