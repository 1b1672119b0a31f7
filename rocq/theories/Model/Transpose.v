(** simdpp/detail/insn/transpose.h and simdpp/core/transpose.h.  The functions take their
    operands by reference; here they return the new values. *)
From Verif Require Export Model.Unzip Model.Permute Model.Shuf4x2.

(** std::swap of element i of array x and element j of array y, in the state [st] of arrays *)
Definition set_el (w i v r : Z) : Z := pack w 128 (fun k => if k =? i then v else lane w k r).
Definition set_nth {X} (m : nat) (v : X) (st : list X) : list X := firstn m st ++ v :: skipn (S m) st.
Definition swap_el (w : Z) (p : (nat * Z) * (nat * Z)) (st : list Z) : list Z :=
  let '((x, i), (y, j)) := p in
  let vx := lane w i (nth x st 0) in
  let vy := lane w j (nth y st 0) in
  let st1 := set_nth x (set_el w i vy (nth x st 0)) st in
  set_nth y (set_el w j vx (nth y st1 0)) st1.
(** detail/null/transpose.h:25-31: for (j = 0; j < V::length; j += 2) *)
Definition null_transpose2 (w a0 a1 : Z) : Z * Z :=
  let st := fold_left (fun st g => let j := 2 * g in swap_el w ((0%nat, j + 1), (1%nat, j)) st)
              (zrange (128 / w / 2)) [a0; a1] in
  (nth 0 st 0, nth 1 st 0).
(** detail/null/transpose.h:33-44 *)
Definition swaps4 (j : Z) : list ((nat * Z) * (nat * Z)) :=
  [((0%nat, j + 1), (1%nat, j)); ((0%nat, j + 2), (2%nat, j)); ((0%nat, j + 3), (3%nat, j));
   ((1%nat, j + 2), (2%nat, j + 1)); ((1%nat, j + 3), (3%nat, j + 1)); ((2%nat, j + 3), (3%nat, j + 2))].
Definition null_transpose4 (w a0 a1 a2 a3 : Z) : Z * Z * Z * Z :=
  let st := fold_left (fun st g => fold_left (fun st p => swap_el w p st) (swaps4 (4 * g)) st)
              (zrange (128 / w / 4)) [a0; a1; a2; a3] in
  (nth 0 st 0, nth 1 st 0, nth 2 st 0, nth 3 st 0).

(** the byte-shuffle version, e.g. transpose.h:62-71 *)
Definition shuf_transpose2 (A : arch) (k : Z) (m0 m1 : list Z) (a0 a1 : Z) : res (Z * Z) :=
  let* b0 := shuffle_mask A R128 k m0 a0 a1 in
  let* b1 := shuffle_mask A R128 k m1 a0 a1 in
  Ok (b0, b1).
(** two zips, e.g. transpose.h:188-192: at the element width, then at twice the width *)
Definition zips (A : arch) (e : et) (s : rsz) (a b : Z) : res (Z * Z) :=
  let* l := i_zip A e s false a b in let* h := i_zip A e s true a b in Ok (l, h).
Definition zip2_transpose2 (A : arch) (e e2 : et) (s : rsz) (a0 a1 : Z) : res (Z * Z) :=
  let* p := zips A e s a0 a1 in zips A e2 s (fst p) (snd p).
(** transpose.h:130-134 *)
Definition sse_transpose2_16 (A : arch) (s : rsz) (a0 a1 : Z) : res (Z * Z) :=
  let* p := zips A I16 s a0 a1 in
  let* r0 := i_shuffle2 A I32 s 0 2 0 2 (fst p) (snd p) in
  let* r1 := i_shuffle2 A I32 s 1 3 1 3 (fst p) (snd p) in
  Ok (r0, r1).
Definition vtrn2 (w a0 a1 : Z) : Z * Z := (vtrn w 128 false a0 a1, vtrn w 128 true a0 a1).

(** transpose.h: u8 53-73 (no wider version), u16 123-177, u32 179-234, u64 236-279,
    f32 281-336, f64 338-384; neon::transpose2 in detail/neon/shuffle.h *)
Definition i_transpose2 (A : arch) (e : et) (s : rsz) (a0 a1 : Z) : res (Z * Z) :=
  match e with
  | I8 =>
      match s with
      | R128 =>
          if use_null A then Ok (null_transpose2 8 a0 a1)
          else if use_neon A then Ok (vtrn2 8 a0 a1)
          else if use_altivec A || use_msa A then
            shuf_transpose2 A 1 [0; 16; 2; 18; 4; 20; 6; 22; 8; 24; 10; 26; 12; 28; 14; 30]
                                [1; 17; 3; 19; 5; 21; 7; 23; 9; 25; 11; 27; 13; 29; 15; 31] a0 a1
          else NotImpl
      | _ => NotImpl
      end
  | I16 =>
      match s with
      | R128 =>
          if use_null A then Ok (null_transpose2 16 a0 a1)
          else if use_sse2 A then sse_transpose2_16 A s a0 a1
          else if use_neon A then Ok (vtrn2 16 a0 a1)
          else if use_altivec A || use_msa A then
            shuf_transpose2 A 2 [0; 8; 2; 10; 4; 12; 6; 14] [1; 9; 3; 11; 5; 13; 7; 15] a0 a1
          else UB
      | R256 => if use_avx2 A then sse_transpose2_16 A s a0 a1 else NotImpl
      | R512 => if use_avx512bw A then sse_transpose2_16 A s a0 a1 else NotImpl
      end
  | I32 =>
      match s with
      | R128 =>
          if use_null A then Ok (null_transpose2 32 a0 a1)
          else if use_sse2 A then zip2_transpose2 A I32 I64 s a0 a1
          else if use_neon A then Ok (vtrn2 32 a0 a1)
          else if use_altivec A || use_msa A then shuf_transpose2 A 4 [0; 4; 2; 6] [1; 5; 3; 7] a0 a1
          else UB
      | R256 => if use_avx2 A then zip2_transpose2 A I32 I64 s a0 a1 else NotImpl
      | R512 => if use_avx512f A then zip2_transpose2 A I32 I64 s a0 a1 else NotImpl
      end
  | I64 =>
      match s with
      | R128 =>
          if use_sse2 A || use_vsx207 A || use_msa A then zips A I64 s a0 a1
          else if use_neon A then
            Ok (vcombine (vget_low a0) (vget_low a1), vcombine (vget_high a0) (vget_high a1))
          else if use_null A || use_altivec A then Ok (null_transpose2 64 a0 a1)
          else UB
      | R256 => if use_avx2 A then zips A I64 s a0 a1 else NotImpl
      | R512 => if use_avx512f A then zips A I64 s a0 a1 else NotImpl
      end
  | F32 =>
      match s with
      | R128 =>
          if use_null A || use_neon_no_flt_sp A then Ok (null_transpose2 32 a0 a1)
          else if use_sse2 A then zip2_transpose2 A F32 F64 s a0 a1
          else if use_neon A then Ok (vtrn2 32 a0 a1)
          else if use_altivec A || use_msa A then shuf_transpose2 A 4 [0; 4; 2; 6] [1; 5; 3; 7] a0 a1
          else UB
      | R256 => if use_avx A then zip2_transpose2 A F32 F64 s a0 a1 else NotImpl
      | R512 => if use_avx512f A then zip2_transpose2 A F32 F64 s a0 a1 else NotImpl
      end
  | F64 =>
      match s with
      | R128 =>
          if use_sse2 A || use_vsx206 A || use_msa A then zips A F64 s a0 a1
          else if use_neon64 A then
            Ok (vcombine (vget_low a0) (vget_low a1), vcombine (vget_high a0) (vget_high a1))
          else Ok (null_transpose2 64 a0 a1)
      | R256 => if use_avx A then zips A F64 s a0 a1 else NotImpl
      | R512 => if use_avx512f A then zips A F64 s a0 a1 else NotImpl
      end
  end.

(** transpose.h:575-594 *)
Definition sse_transpose32x4 (A : arch) (e e2 : et) (s : rsz) (a0 a1 a2 a3 : Z) : res (Z * Z * Z * Z) :=
  let* p := zips A e s a0 a1 in
  let* q := zips A e s a2 a3 in
  let* x := zips A e2 s (fst p) (fst q) in
  let* y := zips A e2 s (snd p) (snd q) in
  Ok (fst x, snd x, fst y, snd y).
(** transpose.h:597-625 *)
Definition sse_transpose16x4 (A : arch) (s : rsz) (a0 a1 a2 a3 : Z) : res (Z * Z * Z * Z) :=
  let* p := zips A I16 s a0 a1 in
  let* q := zips A I16 s a2 a3 in
  let* x := zips A I32 s (fst p) (fst q) in
  let* y := zips A I32 s (snd p) (snd q) in
  let* u := zips A I64 s (fst x) (fst y) in
  let* v := zips A I64 s (snd x) (snd y) in
  Ok (fst u, snd u, fst v, snd v).
(** two passes of i_transpose2, e.g. transpose.h:408-415 *)
Definition two_transpose2 (A : arch) (e e2 : et) (s : rsz) (a0 a1 a2 a3 : Z) : res (Z * Z * Z * Z) :=
  let* p := i_transpose2 A e s a0 a1 in
  let* q := i_transpose2 A e s a2 a3 in
  let* x := i_transpose2 A e2 s (fst p) (fst q) in
  let* y := i_transpose2 A e2 s (snd p) (snd q) in
  Ok (fst x, fst y, snd x, snd y).
(** transpose.h: u32 490-533 *)
Definition i_transpose4_32 (A : arch) (s : rsz) (a0 a1 a2 a3 : Z) : res (Z * Z * Z * Z) :=
  match s with
  | R128 =>
      if use_null A then Ok (null_transpose4 32 a0 a1 a2 a3)
      else if use_sse2 A then sse_transpose32x4 A I32 I64 s a0 a1 a2 a3
      else if use_neon A || use_altivec A || use_msa A then two_transpose2 A I32 I64 s a0 a1 a2 a3
      else UB
  | R256 => if use_avx2 A then sse_transpose32x4 A I32 I64 s a0 a1 a2 a3 else NotImpl
  | R512 => if use_avx512f A then sse_transpose32x4 A I32 I64 s a0 a1 a2 a3 else NotImpl
  end.
(** transpose.h:628-660 *)
Definition sse_transpose8x4 (A : arch) (s : rsz) (a0 a1 a2 a3 : Z) : res (Z * Z * Z * Z) :=
  let* p := zips A I8 s a0 a1 in
  let* q := zips A I8 s a2 a3 in
  let* x := zips A I16 s (fst p) (fst q) in
  let* y := zips A I16 s (snd p) (snd q) in
  i_transpose4_32 A s (fst x) (snd x) (fst y) (snd y).
(** transpose.h: u8 396-444, u16 446-488, u32 490-533, f32 535-572.  There is no 64-bit version. *)
Definition i_transpose4 (A : arch) (e : et) (s : rsz) (a0 a1 a2 a3 : Z) : res (Z * Z * Z * Z) :=
  match e with
  | I8 =>
      match s with
      | R128 =>
          if use_null A then Ok (null_transpose4 8 a0 a1 a2 a3)
          else if use_sse2 A then sse_transpose8x4 A s a0 a1 a2 a3
          else if use_neon A || use_altivec A || use_msa A then two_transpose2 A I8 I16 s a0 a1 a2 a3
          else UB
      | R256 => if use_avx2 A then sse_transpose8x4 A s a0 a1 a2 a3 else NotImpl
      | R512 => if use_avx512bw A then sse_transpose8x4 A s a0 a1 a2 a3 else NotImpl
      end
  | I16 =>
      match s with
      | R128 =>
          if use_null A then Ok (null_transpose4 16 a0 a1 a2 a3)
          else if use_sse2 A then sse_transpose16x4 A s a0 a1 a2 a3
          else if use_neon A || use_altivec A || use_msa A then two_transpose2 A I16 I32 s a0 a1 a2 a3
          else UB
      | R256 => if use_avx2 A then sse_transpose16x4 A s a0 a1 a2 a3 else NotImpl
      | R512 => if use_avx512bw A then sse_transpose16x4 A s a0 a1 a2 a3 else NotImpl
      end
  | I32 => i_transpose4_32 A s a0 a1 a2 a3
  | F32 =>
      match s with
      | R128 => if use_sse2 A then sse_transpose32x4 A F32 F64 s a0 a1 a2 a3 else i_transpose4_32 A s a0 a1 a2 a3
      | R256 => if use_avx A then sse_transpose32x4 A F32 F64 s a0 a1 a2 a3 else NotImpl
      | R512 => if use_avx512f A then sse_transpose32x4 A F32 F64 s a0 a1 a2 a3 else NotImpl
      end
  | I64 | F64 => NotImpl
  end.

(** transpose.h:86-121: used by mem_pack and mem_unpack *)
Definition transpose_inplace (A : arch) (s : rsz) (a : Z) : res Z :=
  let perm := let* idx := i_make_const A W8 s [0; 4; 8; 12; 1; 5; 9; 13; 2; 6; 10; 14; 3; 7; 11; 15] 0 in
              i_permute_bytes16 A s a idx in
  match s with
  | R128 => if use_ssse3 A || use_altivec A || use_msa A then perm else NotImpl
  | R256 => if use_avx2 A then perm else NotImpl
  | R512 => if use_avx512bw A then perm else NotImpl
  end.

(** SIMDPP_VEC_ARRAY_IMPL_REF2 / REF4: detail/vector_array_macros.h:54-67, 83-87, 115-121 *)
Fixpoint vec_ref2 (f : Z -> Z -> res (Z * Z)) (a0 a1 : vec) : res (vec * vec) :=
  match a0, a1 with
  | x0 :: a0, x1 :: a1 =>
      let* r := f x0 x1 in let* rs := vec_ref2 f a0 a1 in
      Ok (fst r :: fst rs, snd r :: snd rs)
  | _, _ => Ok ([], [])
  end.
Fixpoint vec_ref4 (f : Z -> Z -> Z -> Z -> res (Z * Z * Z * Z)) (a0 a1 a2 a3 : vec) : res (vec * vec * vec * vec) :=
  match a0, a1, a2, a3 with
  | x0 :: a0, x1 :: a1, x2 :: a2, x3 :: a3 =>
      let* r := f x0 x1 x2 x3 in let* rs := vec_ref4 f a0 a1 a2 a3 in
      let '(r0, r1, r2, r3) := r in let '(s0, s1, s2, s3) := rs in
      Ok (r0 :: s0, r1 :: s1, r2 :: s2, r3 :: s3)
  | _, _, _, _ => Ok ([], [], [], [])
  end.
(** core/transpose.h: the integer overloads copy through the unsigned type, 36-47 and on *)
Definition transpose2 (A : arch) (e : et) (s : rsz) : vec -> vec -> res (vec * vec) := vec_ref2 (i_transpose2 A e s).
Definition transpose4 (A : arch) (e : et) (s : rsz) : vec -> vec -> vec -> vec -> res (vec * vec * vec * vec) :=
  vec_ref4 (i_transpose4 A e s).
