(** Widening integer conversions: simdpp/detail/insn/conv_extend_to_int{16,32,64}.h,
    simdpp/core/to_int{16,32,64}.h; split and combine: simdpp/detail/insn/{split,combine}.h. *)
From Verif Require Export Model.Permute Model.Shift Spec.Typed.

(** ------------------- arrays of registers ------------------- *)
(** v.vec<i>() of a vector of several registers: detail/array.h:28-200.  The specialised
    arrays of 2, 4 and 8 elements map an index that is out of range to the last element
    (the default: label); larger arrays are C arrays.  A native vector returns itself
    whatever the index (types/int16x8.h:84-87 and the other native types). *)
Definition aclamp (n i : nat) : option nat :=
  if (i <? n)%nat then Some i
  else if (n =? 1)%nat || (n =? 2)%nat || (n =? 4)%nat || (n =? 8)%nat then Some (n - 1)%nat else None.
Definition aget (v : vec) (i : nat) : res Z :=
  match aclamp (length v) i with Some j => Ok (nth j v 0) | None => UB end.
Fixpoint upd (v : vec) (i : nat) (x : Z) : vec :=
  match v, i with
  | [], _ => []
  | _ :: v, O => x :: v
  | y :: v, S i => y :: upd v i x
  end.
Definition aset (v : vec) (i : nat) (x : Z) : res vec :=
  match aclamp (length v) i with Some j => Ok (upd v j x) | None => UB end.
(** dst.vec<i>() = src.vec<j>() for the pairs (i, j) of the list, in order *)
Fixpoint acopy (dst : vec) (src : vec) (l : list (nat * nat)) : res vec :=
  match l with
  | [] => Ok dst
  | (i, j) :: l => let* x := aget src j in let* dst := aset dst i x in acopy dst src l
  end.

(** ------------------- split, combine ------------------- *)
(** insn/split.h:25-138 (one register into its halves; float64<8> reads half 0 by
    extractf64x4), :143-163 (split_unroll: the first and the last vec_length registers) *)
Definition i_split1 (s : rsz) (a : Z) : Z * Z :=
  match s with R256 => (mm_extract128 0 a, mm_extract128 1 a) | _ => (mm_extract256 0 a, mm_extract256 1 a) end.
Fixpoint split_unroll (n : nat) (i : nat) (src d1 d2 : vec) : res (vec * vec) :=
  match n with
  | O => Ok (d1, d2)
  | S n => let* x := aget src i in let* d1 := aset d1 i x in
           let* y := aget src (i + length d1)%nat in let* d2 := aset d2 i y in
           split_unroll n (S i) src d1 d2
  end.
(** [s]: the registers of the argument *)
Definition i_split (s : rsz) (va : vec) : res (vec * vec) :=
  match va with
  | [a] => let '(x, y) := i_split1 s a in Ok ([x], [y])
  | _ => let h := (length va / 2)%nat in split_unroll h 0 va (repeat 0 h) (repeat 0 h)
  end.
(** insn/combine.h:22-160 (cast and insert), :163-191 (combine_unroll) *)
Definition i_combine1 (s : rsz) (a b : Z) : Z :=
  match s with R128 => mm_combine128 a b | _ => mm_combine256 a b end.
Fixpoint combine_unroll (n : nat) (i : nat) (dst s1 s2 : vec) : res vec :=
  match n with
  | O => Ok dst
  | S n => let* x := aget s1 i in let* dst := aset dst i x in
           let* y := aget s2 i in let* dst := aset dst (i + length s1)%nat y in
           combine_unroll n (S i) dst s1 s2
  end.
(** [s], [s']: the registers of the arguments and of the result *)
Definition i_combine (s s' : rsz) (va vb : vec) : res vec :=
  match va, vb, s, s' with
  | [a], [b], R128, R256 | [a], [b], R256, R512 => Ok [i_combine1 s a b]
  | _, _, _, _ => combine_unroll (length va) 0 (repeat 0 (length va + length va)) va vb
  end.
(** combine of two registers of w-bit lanes: one register twice as large when it exists *)
Definition combine2 (A : arch) (w : Z) (s : rsz) (a b : Z) : vec :=
  match s with
  | R128 => if avail_int A w R256 then [mm_combine128 a b] else [a; b]
  | R256 => if avail_int A w R512 then [mm_combine256 a b] else [a; b]
  | R512 => [a; b]
  end.

(** ------------------- widening of one register ------------------- *)
(** for (i) r.vec(i/n).el(i%n) = to_type(a.el(i)), for every lane of a 128-bit register
    (the NULL rungs, and the mem_block rungs of AltiVec) *)
Definition null_widen (t t' : cty) (a : Z) : res vec :=
  let n := 128 / snd t' in
  (fix go (l : list Z) : res vec := match l with
   | [] => Ok []
   | j :: l => let* r := nloop t' 128 (fun i => Ok (ccast t' (el t a (j * n + i)))) in
               let* rs := go l in Ok (r :: rs)
   end) (zrange (snd t' / snd t)).
Definition mm_cvt (sg : bool) w v R a := if sg then mm_cvtepi w v R a else mm_cvtepu w v R a.
Definition vmovl (sg : bool) w a := if sg then vmovl_s w a else vmovl_u w a.
Definition ty (sg : bool) (w : Z) : cty := (sg, w).
(** r1 = zip_lo(a, b); r2 = zip_hi(a, b) *)
Definition zip_pair (A : arch) (e : et) (a b : Z) : res vec :=
  let* r1 := i_zip A e R128 false a b in let* r2 := i_zip A e R128 true a b in Ok [r1; r2].

(** conv_extend_to_int16.h: uint8 28-59, 62-73, 78-85; int8 120-159, 162-173, 178-185 *)
Definition i_ext_8_16 (A : arch) (sg : bool) (s : rsz) (a : Z) : res vec :=
  match s with
  | R128 =>
      if use_null A then null_widen (ty sg 8) (ty sg 16) a
      else if use_avx2 A then Ok [mm_cvt sg 8 16 256 a]
      else if use_sse41 A then
        let* m := i_move16_l A R128 8 a in
        Ok (combine2 A 16 R128 (mm_cvt sg 8 16 128 a) (mm_cvt sg 8 16 128 m))
      else if sg then
        if use_sse2 A then
          let* r1 := i_zip A I8 R128 false 0 a in let* r1 := i_shift_r_t A true W16 R128 8 r1 in
          let* r2 := i_zip A I8 R128 true 0 a in let* r2 := i_shift_r_t A true W16 R128 8 r2 in
          Ok (combine2 A 16 R128 r1 r2)
        else if use_neon A then Ok [vmovl_s 8 (vget_low a); vmovl_s 8 (vget_high a)]
        else if use_msa A then
          let* sign := i_shift_r_t A true W8 R128 7 a in zip_pair A I8 a sign
        else if use_altivec A then Ok [vec_unpackh 8 a; vec_unpackl 8 a] else UB
      else
        if use_sse2 A || use_altivec A || use_msa A then zip_pair A I8 a 0
        else if use_neon A then Ok [vmovl_u 8 (vget_low a); vmovl_u 8 (vget_high a)] else UB
  | R256 =>
      if use_avx2 A then
        if use_avx512bw A then Ok [mm_cvt sg 8 16 512 a]
        else let '(a0, a1) := i_split1 R256 a in
             Ok (combine2 A 16 R256 (mm_cvt sg 8 16 256 a0) (mm_cvt sg 8 16 256 a1))
      else NotImpl
  | R512 =>
      if use_avx512bw A then
        let '(a0, a1) := i_split1 R512 a in
        Ok (combine2 A 16 R512 (mm_cvt sg 8 16 512 a0) (mm_cvt sg 8 16 512 a1))
      else NotImpl
  end.

(** conv_extend_to_int32.h: uint16 32-65, 68-80, 84-92; int16 241-273, 277-289, 293-301.
    (NEON reads vget_high(a.vec<1>()): on a native vector vec<1>() is the vector.) *)
Definition i_ext_16_32 (A : arch) (sg : bool) (s : rsz) (a : Z) : res vec :=
  match s with
  | R128 =>
      if use_null A then null_widen (ty sg 16) (ty sg 32) a
      else if use_avx2 A then Ok [mm_cvt sg 16 32 256 a]
      else if use_sse41 A then
        let* m := i_move8_l A R128 4 a in
        Ok [mm_cvt sg 16 32 128 a; mm_cvt sg 16 32 128 m]
      else if sg then
        if use_sse2 A || use_msa A then
          let* sign := i_shift_r_t A true W16 R128 15 a in zip_pair A I16 a sign
        else if use_neon A then Ok [vmovl_s 16 (vget_low a); vmovl_s 16 (vget_high a)]
        else if use_altivec A then Ok [vec_unpackh 16 a; vec_unpackl 16 a] else UB
      else
        if use_sse2 A || use_msa A || use_altivec A then zip_pair A I16 a 0
        else if use_neon A then Ok [vmovl_u 16 (vget_low a); vmovl_u 16 (vget_high a)] else UB
  | R256 =>
      if use_avx2 A then
        if use_avx512f A then Ok [mm_cvt sg 16 32 512 a]
        else let '(a0, a1) := i_split1 R256 a in
             Ok [mm_cvt sg 16 32 256 a0; mm_cvt sg 16 32 256 a1]
      else NotImpl
  | R512 =>
      if use_avx512bw A then
        let '(a0, a1) := i_split1 R512 a in
        Ok [mm_cvt sg 16 32 512 a0; mm_cvt sg 16 32 512 a1]
      else NotImpl
  end.

(** conv_extend_to_int64.h: uint32 30-63, 67-75, 80-88; int32 380-416, 420-428, 433-439 *)
Definition i_ext_32_64 (A : arch) (sg : bool) (s : rsz) (a : Z) : res vec :=
  match s with
  | R128 =>
      if use_null A then null_widen (ty sg 32) (ty sg 64) a
      else if use_avx2 A then Ok [mm_cvt sg 32 64 256 a]
      else if use_sse41 A then
        let* m := i_move4_l A R128 2 a in
        Ok (combine2 A 64 R128 (mm_cvt sg 32 64 128 a) (mm_cvt sg 32 64 128 m))
      else if use_sse2 A || use_msa A || use_vsx207 A then
        if sg then let* sign := i_shift_r_t A true W32 R128 31 a in zip_pair A I32 a sign
        else zip_pair A I32 a 0
      else if use_neon A then Ok [vmovl sg 32 (vget_low a); vmovl sg 32 (vget_high a)]
      else if use_altivec A then null_widen (ty sg 32) (ty sg 64) a else UB
  | R256 =>
      if use_avx2 A then
        let '(a1, a2) := i_split1 R256 a in
        Ok (combine2 A 64 R256 (mm_cvt sg 32 64 256 a1) (mm_cvt sg 32 64 256 a2))
      else NotImpl
  | R512 =>
      if use_avx512f A then
        let '(a1, a2) := i_split1 R512 a in
        Ok (combine2 A 64 R512 (mm_cvt sg 32 64 512 a1) (mm_cvt sg 32 64 512 a2))
      else NotImpl
  end.

(** ------------------- the converter loops ------------------- *)
(** struct uint_8_to_uint16_converter and the others: for every register I of the source,
    sr = convert(src.vec<I>()); dst.vec<I*k+j>() = sr.vec<j>() for j < k.  [n] is the
    number of registers of dst. *)
Fixpoint conv_loop (k : nat) (f : Z -> res vec) (i : nat) (src dst : vec) : res vec :=
  match src with
  | [] => Ok dst
  | a :: src =>
      let* sr := f a in
      let* dst := acopy dst sr (map (fun j => (i * k + j, j)%nat) (seq 0 k)) in
      conv_loop k f (S i) src dst
  end.
(** number of registers of a vector of w-bit elements with T bits *)
Definition vlen (A : arch) (w T : Z) : nat := Z.to_nat (T / rbits (vreg A w T)).
(** A vector in one register is converted by the overload for that register; longer ones
    by the loop over the vec_length registers. *)
Definition conv_vec (A : arch) (w w' : Z) (T : Z) (k : nat) (f : rsz -> Z -> res vec) (va : vec) : res vec :=
  match va with
  | [a] => f (vreg A w T) a
  | _ => conv_loop k (f (vreg A w T)) 0 va (repeat 0 (vlen A w' (T * w' / w)))
  end.

(** conv_extend_to_int16.h:89-116, 190-217 *)
Definition ext_8_16 A sg T := conv_vec A 8 16 T 2 (i_ext_8_16 A sg).
(** conv_extend_to_int32.h:95-126, 304-335: one register per step with AVX512F but not BW *)
Definition f_not_bw A := use_avx512f A && negb (use_avx512bw A).
Definition ext_16_32 A sg T :=
  conv_vec A 16 32 T (if f_not_bw A then 1 else 2) (i_ext_16_32 A sg).
(** conv_extend_to_int64.h:92-119, 443-470 *)
Definition ext_32_64 A sg T := conv_vec A 32 64 T 2 (i_ext_32_64 A sg).

(** conv_extend_to_int32.h: uint8 131-156, 159-178, 182-196; int8 340-365, 369-388,
    392-406; the SSE2, NEON, AltiVec, MSA rung converts twice *)
Definition i_ext_8_32 (A : arch) (sg : bool) (s : rsz) (a : Z) : res vec :=
  let mv n a := i_move16_l A R128 n a in
  match s with
  | R128 =>
      if use_null A then null_widen (ty sg 8) (ty sg 32) a
      else if use_avx512f A then Ok [mm_cvt sg 8 32 512 a]
      else if use_avx2 A then
        let* m := mv 8 a in Ok [mm_cvt sg 8 32 256 a; mm_cvt sg 8 32 256 m]
      else if use_sse41 A then
        let* m4 := mv 4 a in let* m8 := mv 8 a in let* m12 := mv 12 a in
        Ok [mm_cvt sg 8 32 128 a; mm_cvt sg 8 32 128 m4; mm_cvt sg 8 32 128 m8; mm_cvt sg 8 32 128 m12]
      else if use_sse2 A || use_neon A || use_altivec A || use_msa A then
        let* v := ext_8_16 A sg 128 [a] in ext_16_32 A sg 256 v
      else UB
  | R256 =>
      if use_avx2 A then
        let '(a0, a1) := i_split1 R256 a in
        if use_avx512f A then Ok [mm_cvt sg 8 32 512 a0; mm_cvt sg 8 32 512 a1]
        else let* m0 := mv 8 a0 in let* m1 := mv 8 a1 in
             Ok [mm_cvt sg 8 32 256 a0; mm_cvt sg 8 32 256 m0; mm_cvt sg 8 32 256 a1; mm_cvt sg 8 32 256 m1]
      else NotImpl
  | R512 =>
      if use_avx512bw A then
        let '(a01, a23) := i_split1 R512 a in
        let '(a0, a1) := i_split1 R256 a01 in
        let '(a2, a3) := i_split1 R256 a23 in
        Ok [mm_cvt sg 8 32 512 a0; mm_cvt sg 8 32 512 a1; mm_cvt sg 8 32 512 a2; mm_cvt sg 8 32 512 a3]
      else NotImpl
  end.
(** conv_extend_to_int32.h:200-236, 410-446 *)
Definition ext_8_32 A sg T :=
  conv_vec A 8 32 T (if f_not_bw A then 2 else 4) (i_ext_8_32 A sg).

(** conv_extend_to_int64.h: uint16 124-156, 160-179, 184-203 (the overload for uint16<32>
    takes one register or, without BW, two: [i_ext_16_64_2]); int16 476-508, 512-531,
    536-555 *)
Definition i_ext_16_64_4 (sg : bool) (a01 a23 : Z) : vec :=
  let '(a0, a1) := i_split1 R256 a01 in
  let '(a2, a3) := i_split1 R256 a23 in
  [mm_cvt sg 16 64 512 a0; mm_cvt sg 16 64 512 a1; mm_cvt sg 16 64 512 a2; mm_cvt sg 16 64 512 a3].
Definition i_ext_16_64 (A : arch) (sg : bool) (s : rsz) (a : Z) : res vec :=
  let mv n a := i_move8_l A R128 n a in
  match s with
  | R128 =>
      if use_null A then null_widen (ty sg 16) (ty sg 64) a
      else if use_avx512f A then Ok [mm_cvt sg 16 64 512 a]
      else if use_avx2 A then
        let* m := mv 4 a in Ok [mm_cvt sg 16 64 256 a; mm_cvt sg 16 64 256 m]
      else if use_sse41 A then
        let* m2 := mv 2 a in let* m4 := mv 4 a in let* m6 := mv 6 a in
        Ok [mm_cvt sg 16 64 128 a; mm_cvt sg 16 64 128 m2; mm_cvt sg 16 64 128 m4; mm_cvt sg 16 64 128 m6]
      else if use_sse2 A || use_neon A || use_msa A || use_vsx207 A then
        let* v := ext_16_32 A sg 128 [a] in ext_32_64 A sg 256 v
      else if use_altivec A then null_widen (ty sg 16) (ty sg 64) a else UB
  | R256 =>
      if use_avx2 A then
        let '(a0, a1) := i_split1 R256 a in
        if use_avx512f A then Ok [mm_cvt sg 16 64 512 a0; mm_cvt sg 16 64 512 a1]
        else let* m0 := mv 4 a0 in let* m1 := mv 4 a1 in
             Ok [mm_cvt sg 16 64 256 a0; mm_cvt sg 16 64 256 m0; mm_cvt sg 16 64 256 a1; mm_cvt sg 16 64 256 m1]
      else NotImpl
  | R512 =>
      if use_avx512bw A then
        let '(a01, a23) := i_split1 R512 a in Ok (i_ext_16_64_4 sg a01 a23)
      else NotImpl
  end.
(** conv_extend_to_int64.h:207-236, 558-587, and the overload for two 256-bit registers *)
Definition ext_16_64 A sg T va :=
  match va with
  | [a01; a23] => if f_not_bw A && (T =? 512) then Ok (i_ext_16_64_4 sg a01 a23)
                  else conv_vec A 16 64 T 4 (i_ext_16_64 A sg) va
  | _ => conv_vec A 16 64 T 4 (i_ext_16_64 A sg) va
  end.

(** conv_extend_to_int64.h: uint8 241-282, 286-311, 316-339; int8 592-633, 637-662, 667-690 *)
Definition i_ext_8_64_8 (A : arch) (sg : bool) (a01 a23 : Z) : res vec :=
  let mv n a := i_move16_l A R128 n a in
  let '(a0, a1) := i_split1 R256 a01 in
  let '(a2, a3) := i_split1 R256 a23 in
  let* m0 := mv 8 a0 in let* m1 := mv 8 a1 in let* m2 := mv 8 a2 in let* m3 := mv 8 a3 in
  Ok [mm_cvt sg 8 64 512 a0; mm_cvt sg 8 64 512 m0; mm_cvt sg 8 64 512 a1; mm_cvt sg 8 64 512 m1;
      mm_cvt sg 8 64 512 a2; mm_cvt sg 8 64 512 m2; mm_cvt sg 8 64 512 a3; mm_cvt sg 8 64 512 m3].
Definition i_ext_8_64 (A : arch) (sg : bool) (s : rsz) (a : Z) : res vec :=
  let mv n a := i_move16_l A R128 n a in
  match s with
  | R128 =>
      if use_null A then null_widen (ty sg 8) (ty sg 64) a
      else if use_avx512f A then
        let* m := mv 8 a in Ok [mm_cvt sg 8 64 512 a; mm_cvt sg 8 64 512 m]
      else if use_avx2 A then
        let* m4 := mv 4 a in let* m8 := mv 8 a in let* m12 := mv 12 a in
        Ok [mm_cvt sg 8 64 256 a; mm_cvt sg 8 64 256 m4; mm_cvt sg 8 64 256 m8; mm_cvt sg 8 64 256 m12]
      else if use_sse41 A then
        let* m2 := mv 2 a in let* m4 := mv 4 a in let* m6 := mv 6 a in let* m8 := mv 8 a in
        let* m10 := mv 10 a in let* m12 := mv 12 a in let* m14 := mv 14 a in
        Ok [mm_cvt sg 8 64 128 a; mm_cvt sg 8 64 128 m2; mm_cvt sg 8 64 128 m4; mm_cvt sg 8 64 128 m6;
            mm_cvt sg 8 64 128 m8; mm_cvt sg 8 64 128 m10; mm_cvt sg 8 64 128 m12; mm_cvt sg 8 64 128 m14]
      else if use_sse2 A || use_neon A || use_msa A || use_vsx207 A then
        let* v := ext_8_32 A sg 128 [a] in ext_32_64 A sg 512 v
      else if use_altivec A then null_widen (ty sg 8) (ty sg 64) a else UB
  | R256 =>
      if use_avx2 A then
        let '(a0, a1) := i_split1 R256 a in
        if use_avx512f A then
          let* m0 := mv 8 a0 in let* m1 := mv 8 a1 in
          Ok [mm_cvt sg 8 64 512 a0; mm_cvt sg 8 64 512 m0; mm_cvt sg 8 64 512 a1; mm_cvt sg 8 64 512 m1]
        else
          let* m4 := mv 4 a0 in let* m8 := mv 8 a0 in let* m12 := mv 12 a0 in
          let* n4 := mv 4 a1 in let* n8 := mv 8 a1 in let* n12 := mv 12 a1 in
          Ok [mm_cvt sg 8 64 256 a0; mm_cvt sg 8 64 256 m4; mm_cvt sg 8 64 256 m8; mm_cvt sg 8 64 256 m12;
              mm_cvt sg 8 64 256 a1; mm_cvt sg 8 64 256 n4; mm_cvt sg 8 64 256 n8; mm_cvt sg 8 64 256 n12]
      else NotImpl
  | R512 =>
      if use_avx512bw A then
        let '(a01, a23) := i_split1 R512 a in i_ext_8_64_8 A sg a01 a23
      else NotImpl
  end.
(** conv_extend_to_int64.h:342-375, 693-726, and the overload for two 256-bit registers *)
Definition ext_8_64 A sg T va :=
  match va with
  | [a01; a23] => if f_not_bw A && (T =? 512) then i_ext_8_64_8 A sg a01 a23
                  else conv_vec A 8 64 T 8 (i_ext_8_64 A sg) va
  | _ => conv_vec A 8 64 T 8 (i_ext_8_64 A sg) va
  end.
