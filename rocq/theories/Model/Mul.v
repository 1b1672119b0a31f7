(** Integer multiplication: simdpp/detail/insn/{i_mul_lo,i_mul_hi,i_mull}.h,
    simdpp/core/{i_mul,i_mull}.h. *)
From Verif Require Export Model.Unzip Model.Shuf4x2 Model.Cast.

(** detail/null/math.h:140-148 *)
Definition null_mul (t : cty) (R a b : Z) := nloop t R (fun i => c_mul (el t a i) (el t b i)).

(** insn/i_mul_lo.h: u16 28-59; u32 63-139 (AltiVec: the little-endian variant; vmuluwm as
    an instruction) *)
Definition i_mul_lo16 (A : arch) (s : rsz) (a b : Z) : res Z :=
  match s with
  | R128 =>
      if use_null A then null_mul (ut W16) 128 a b
      else if use_sse2 A then Ok (mm_mullo 16 128 a b)
      else if use_neon A then Ok (vmulq 16 a b)
      else if use_altivec A then Ok (vec_mladd a b 0)
      else if use_msa A then Ok (msa_mulv 16 a b) else UB
  | R256 => if use_avx2 A then Ok (mm_mullo 16 256 a b) else NotImpl
  | R512 => if use_avx512bw A then Ok (mm_mullo 16 512 a b) else NotImpl
  end.
Definition i_mul_lo32 (A : arch) (s : rsz) (a b : Z) : res Z :=
  match s with
  | R128 =>
      if use_null A then null_mul (ut W32) 128 a b
      else if use_sse41 A then Ok (mm_mullo 32 128 a b)
      else if use_sse2 A then
        let* a1 := i_move4_l A R128 1 a in
        let* b1 := i_move4_l A R128 1 b in
        let r := mm_mul_epu32 128 a b in
        let a1 := mm_mul_epu32 128 a1 b1 in
        let* r := i_shuffle2 A I32 R128 0 2 0 2 r a1 in
        i_permute4 A I32 R128 0 2 1 3 r
      else if use_neon A then Ok (vmulq 32 a b)
      else if use_vsx207 A then Ok (vec_vmuluwm a b)
      else if use_altivec A then
        let* sa := i_move8_l A R128 1 a in
        let* sb := i_move8_l A R128 1 b in
        let l_ab := vec_mule_u 16 a b in
        let h_ab := vec_mule_u 16 a sb in
        let h_ba := vec_mule_u 16 sa b in
        let* h := i_add A W32 R128 h_ab h_ba in
        let* h := i_shift_l_t A W32 R128 16 h in
        i_add A W32 R128 h l_ab
      else if use_msa A then Ok (msa_mulv 32 a b) else UB
  | R256 => if use_avx2 A then Ok (mm_mullo 32 256 a b) else NotImpl
  | R512 => if use_avx512f A then Ok (mm_mullo 32 512 a b) else NotImpl
  end.
(** core/i_mul.h:36-46, 114-123: 16- and 32-bit lanes only *)
Definition mul_lo (A : arch) (w : ew) (s : rsz) (va vb : vec) : res vec :=
  match w with
  | W16 => vec_impl2 (i_mul_lo16 A s) va vb
  | W32 => vec_impl2 (i_mul_lo32 A s) va vb
  | _ => NotImpl
  end.

(** ------------------- widening multiplication of one register ------------------- *)
Definition vmull (sg : bool) w a b := if sg then vmull_s w a b else vmull_u w a b.
Definition vec_mule (sg : bool) w a b := if sg then vec_mule_s w a b else vec_mule_u w a b.
Definition vec_mulo (sg : bool) w a b := if sg then vec_mulo_s w a b else vec_mulo_u w a b.
Definition mm_mulhi (sg : bool) R a b := if sg then mm_mulhi_epi 16 R a b else mm_mulhi_epu 16 R a b.
Definition mm_mul32 (sg : bool) R a b := if sg then mm_mul_epi32 R a b else mm_mul_epu32 R a b.
(** combine(zip_lo(lo, hi), zip_hi(lo, hi)) in the registers of the narrow type *)
Definition zip_combine (A : arch) (e : et) (w : Z) (s : rsz) (lo hi : Z) : res vec :=
  let* x := i_zip A e s false lo hi in let* y := i_zip A e s true lo hi in Ok (combine2 A w s x y).
(** for (i) r.vec(i/n).el(i%n) = int2w_t(a.el(i)) * b.el(i) *)
Definition null_mull (t t' : cty) (a b : Z) : res vec :=
  let n := 128 / snd t' in
  (fix go (l : list Z) : res vec := match l with
   | [] => Ok []
   | j :: l => let* r := nloop t' 128 (fun i => c_mul (ccast t' (el t a (j * n + i))) (el t b (j * n + i))) in
               let* rs := go l in Ok (r :: rs)
   end) (zrange 2).

(** insn/i_mull.h: int16 56-84, 86-97, 99-111; uint16 125-153, 155-166, 168-180.  (The NULL
    rung of uint16 stores into an int32x8: the value wraps, and the result type is
    unsigned again.) *)
Definition i_mull16 (A : arch) (sg : bool) (s : rsz) (a b : Z) : res vec :=
  let via_zip as_ bs :=
    let lo := mm_mullo 16 (rbits s) as_ bs in
    let hi := mm_mulhi sg (rbits s) as_ bs in
    let* v := zip_combine A I16 16 s lo hi in
    bit_cast A (TInt W16) (TInt W32) (2 * rbits s) v in
  match s with
  | R128 =>
      if use_null A then null_mull (ty sg 16) (ty sg 32) a b
      else if use_sse2 A then via_zip a b
      else if use_neon A then
        Ok [vmull sg 16 (vget_low a) (vget_low b); vmull sg 16 (vget_high a) (vget_high b)]
      else if use_altivec A then zip_combine A I32 32 R128 (vec_mule sg 16 a b) (vec_mulo sg 16 a b)
      else if use_msa A then
        let* va := i_ext_16_32 A sg R128 a in let* vb := i_ext_16_32 A sg R128 b in
        let* a0 := aget va 0 in let* b0 := aget vb 0 in
        let* a1 := aget va 1 in let* b1 := aget vb 1 in
        Ok [msa_mulv 32 a0 b0; msa_mulv 32 a1 b1]
      else UB
  | R256 =>
      if use_avx2 A then via_zip (mm_permute4x64 256 (MM_SHUFFLE 3 1 2 0) a) (mm_permute4x64 256 (MM_SHUFFLE 3 1 2 0) b)
      else NotImpl
  | R512 =>
      if use_avx512bw A then
        let* idx := i_make_const A W64 R512 [0; 4; 1; 5; 2; 6; 3; 7] 0 in
        via_zip (mm_permutexvar 64 512 idx a) (mm_permutexvar 64 512 idx b)
      else NotImpl
  end.
(** insn/i_mull.h: int32 194-245, 247-260 (no overload for int32<16>: the template at
    262-270 calls itself for ever); uint32 274-332, 334-349, 351-366 *)
Definition i_mull32 (A : arch) (sg : bool) (s : rsz) (a b : Z) : res vec :=
  let msa :=
    let* va := i_ext_32_64 A sg R128 a in let* vb := i_ext_32_64 A sg R128 b in
    let* a0 := aget va 0 in let* b0 := aget vb 0 in
    let* a1 := aget va 1 in let* b1 := aget vb 1 in
    Ok [msa_mulv 64 a0 b0; msa_mulv 64 a1 b1] in
  match s with
  | R128 =>
      if use_null A then null_mull (ty sg 32) (ty sg 64) a b
      else if (if sg then use_sse41 A else use_sse2 A) then
        let* al := i_zip A I32 R128 false a a in let* bl := i_zip A I32 R128 false b b in
        let* ah := i_zip A I32 R128 true a a in let* bh := i_zip A I32 R128 true b b in
        Ok (combine2 A 64 R128 (mm_mul32 sg 128 al bl) (mm_mul32 sg 128 ah bh))
      else if use_neon A then
        Ok [vmull sg 32 (vget_low a) (vget_low b); vmull sg 32 (vget_high a) (vget_high b)]
      else if use_vsx207 A then zip_combine A I64 64 R128 (vec_mule sg 32 a b) (vec_mulo sg 32 a b)
      else if sg then if use_msa A then msa else NotImpl
      else if use_altivec A then null_mull (ty sg 32) (ty sg 64) a b
      else if use_msa A then msa else UB
  | R256 =>
      if use_avx2 A then
        let '(al, ah) := i_split1 R256 a in let '(bl, bh) := i_split1 R256 b in
        let* al := i_ext_32_64 A sg R128 al in let* bl := i_ext_32_64 A sg R128 bl in
        let* ah := i_ext_32_64 A sg R128 ah in let* bh := i_ext_32_64 A sg R128 bh in
        let* al := aget al 0 in let* bl := aget bl 0 in let* ah := aget ah 0 in let* bh := aget bh 0 in
        Ok (combine2 A 64 R256 (mm_mul32 sg 256 al bl) (mm_mul32 sg 256 ah bh))
      else NotImpl
  | R512 =>
      if use_avx512f A then
        if sg then UB
        else
          let '(al, ah) := i_split1 R512 a in let '(bl, bh) := i_split1 R512 b in
          let* al := i_ext_32_64 A sg R256 al in let* bl := i_ext_32_64 A sg R256 bl in
          let* ah := i_ext_32_64 A sg R256 ah in let* bh := i_ext_32_64 A sg R256 bh in
          let* al := aget al 0 in let* bl := aget bl 0 in let* ah := aget ah 0 in let* bh := aget bh 0 in
          Ok (combine2 A 64 R512 (mm_mul32 sg 512 al bl) (mm_mul32 sg 512 ah bh))
      else NotImpl
  end.
(** i_mull.h:113-121, 182-190, 262-270, 368-376 with core/detail/subvec_insert.h:24-32:
    r.vec(n*v.vec_length + j) = v.vec(j) for every register n of the arguments *)
Fixpoint mull_loop (f : Z -> Z -> res vec) (i : nat) (sa sb dst : vec) : res vec :=
  match sa, sb with
  | a :: sa, b :: sb =>
      let* sr := f a b in
      let* dst := acopy dst sr (map (fun j => (i * length sr + j, j)%nat) (seq 0 (length sr))) in
      mull_loop f (S i) sa sb dst
  | _, _ => Ok dst
  end.
Definition mull_vec (A : arch) (w w' T : Z) (f : rsz -> Z -> Z -> res vec) (va vb : vec) : res vec :=
  match va, vb with
  | [a], [b] => f (vreg A w T) a b
  | _, _ => mull_loop (f (vreg A w T)) 0 va vb (repeat 0 (vlen A w' (T * w' / w)))
  end.
(** core/i_mull.h:57-63, 80-86, 104-110, 128-134 *)
Definition mull16 (A : arch) (sg : bool) (T : Z) := mull_vec A 16 32 T (i_mull16 A sg).
Definition mull32 (A : arch) (sg : bool) (T : Z) := mull_vec A 32 64 T (i_mull32 A sg).

(** ------------------- the high half ------------------- *)
(** insn/i_mul_hi.h: int16 26-52, 54-68; uint16 72-96, 98-112.  Little-endian variants.
    (mull on 128-bit-only backends gives two registers.) *)
Definition i_mul_hi (A : arch) (sg : bool) (s : rsz) (a b : Z) : res Z :=
  match s with
  | R128 =>
      if use_null A then
        nloop (ut W16) 128 (fun i =>
          let* p := c_mul (ccast (ty sg 32) (el (ty sg 16) a i)) (el (ty sg 16) b i) in c_shr p (c_int, 16))
      else if use_sse2 A then Ok (mm_mulhi sg 128 a b)
      else if use_neon A then
        i_unzip_hi A I16 R128 (vmull sg 16 (vget_low a) (vget_low b)) (vmull sg 16 (vget_high a) (vget_high b))
      else if use_altivec A || use_msa A then
        let* ab := i_mull16 A sg R128 a b in
        let* x := aget ab 0 in let* y := aget ab 1 in i_unzip_hi A I16 R128 x y
      else UB
  | R256 => if use_avx2 A then Ok (mm_mulhi sg 256 a b) else NotImpl
  | R512 => if use_avx512bw A then Ok (mm_mulhi sg 512 a b) else NotImpl
  end.
(** core/i_mul.h:65-69, 88-92 *)
Definition mul_hi (A : arch) (sg : bool) (s : rsz) (va vb : vec) : res vec := vec_impl2 (i_mul_hi A sg s) va vb.
