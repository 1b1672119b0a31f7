(** move16_l .. move2_l, move16_r .. move2_r, align16 .. align2:
    simdpp/detail/insn/{move_l,move_r,align}.h, simdpp/core/{move_l,move_r,align}.h.
    Where the source distinguishes signed and unsigned lanes only by a cast, the unsigned
    overload is modelled (the API casts: get_expr_nomask_nosign). *)
From Verif Require Export Model.Bitwise Base.IsaShuf.

(** Element types of vectors that shuffles accept. *)
Inductive et := I8 | I16 | I32 | I64 | F32 | F64.
Definition eb (e : et) : Z := match e with I8 => 8 | I16 => 16 | I32 | F32 => 32 | I64 | F64 => 64 end.
Definition avail_et (A : arch) (e : et) (s : rsz) : bool :=
  match e with F32 | F64 => avail_flt A s | _ => avail_int A (eb e) s end.
(** lanes of a 128-bit register *)
Definition en (e : et) : Z := 128 / eb e.
(** the scalar rung for 64-bit integers: NULL, or AltiVec without 64-bit lanes *)
Definition scalar64 A := use_null A || (use_altivec A && negb (use_vsx207 A)).

(** detail/insn/shuffle_mask.h:42-43 and _MM_SHUFFLE(s3,s2,s1,s0) *)
Definition mask_4x4 (x0 x1 x2 x3 : Z) : Z :=
  Z.land (Z.lor (Z.lor (Z.shiftl x3 6) (Z.shiftl x2 4)) (Z.lor (Z.shiftl x1 2) x0)) 0xff.
Definition MM_SHUFFLE (s3 s2 s1 s0 : Z) : Z := mask_4x4 s0 s1 s2 s3.
(** shuffle_mask.h:21-29 *)
Definition mask_2x2 (x0 x1 : Z) : Z := Z.land (Z.lor (Z.shiftl x1 1) x0) 3.
Definition mask_2x2_2 (x0 x1 : Z) : Z := Z.lor (Z.shiftl (mask_2x2 x0 x1) 2) (mask_2x2 x0 x1).
Definition mask_2x2_4 (x0 x1 : Z) : Z := Z.lor (Z.shiftl (mask_2x2_2 x0 x1) 4) (mask_2x2_2 x0 x1).

(** detail/null/shuffle.h:22-50 (move_n_r, move_n_l): element copies *)
Definition null_move_n_l (w sh a : Z) : Z :=
  lsh w 128 (128 / w) (fun i => if i <? 128 / w - sh then fromA (i + sh) else zlane) [a].
Definition null_move_n_r (w sh a : Z) : Z :=
  lsh w 128 (128 / w) (fun i => if i <? sh then zlane else fromA (i - sh)) [a].

(** move_l.h:26-37, little endian *)
Definition vec_sld_biendian (sh lower upper : Z) : Z := vec_sld upper lower (16 - sh).

(** move_l.h:39-75 *)
Definition i_move16_l (A : arch) (s : rsz) (sh a : Z) : res Z :=
  match s with
  | R128 =>
      if use_null A then Ok (null_move_n_l 8 sh a)
      else if use_sse2 A then Ok (mm_bsrli 128 sh a)
      else if use_neon A then Ok (vext 8 128 sh a 0)
      else if use_altivec A then Ok (vec_sld_biendian sh a 0)
      else if use_msa A then Ok (msa_sld 0 a sh) else UB
  | R256 => if use_avx2 A then Ok (mm_bsrli 256 sh a) else NotImpl
  | R512 => if use_avx512bw A then Ok (mm_bsrli 512 sh a) else NotImpl
  end.
(** move_l.h: 8: 86-112; 4: 122-158; 2: 168-194 *)
Definition i_move8_l (A : arch) (s : rsz) (sh a : Z) : res Z :=
  match s with
  | R128 => if use_null A then Ok (null_move_n_l 16 sh a) else i_move16_l A R128 (sh * 2) a
  | R256 => if use_avx2 A then Ok (mm_bsrli 256 (sh * 2) a) else NotImpl
  | R512 => if use_avx512bw A then Ok (mm_bsrli 512 (sh * 2) a) else NotImpl
  end.
Definition i_move4_l (A : arch) (s : rsz) (sh a : Z) : res Z :=
  match s with
  | R128 => if use_null A then Ok (null_move_n_l 32 sh a) else i_move16_l A R128 (sh * 4) a
  | R256 => if use_avx2 A then Ok (mm_bsrli 256 (sh * 4) a) else NotImpl
  | R512 => if use_avx512f A then Ok
      (if sh =? 1 then mm_maskz 32 512 0x7777 (mm_shuffle_epi32 512 (MM_SHUFFLE 3 3 2 1) a)
       else if sh =? 2 then mm_maskz 32 512 0x3333 (mm_shuffle_epi32 512 (MM_SHUFFLE 3 3 3 2) a)
       else if sh =? 3 then mm_maskz 32 512 0x1111 (mm_shuffle_epi32 512 (MM_SHUFFLE 3 3 3 3) a)
       else if sh =? 4 then 0 else a) else NotImpl
  end.
Definition i_move2_l (A : arch) (s : rsz) (sh a : Z) : res Z :=
  match s with
  | R128 => if scalar64 A then Ok (null_move_n_l 64 sh a) else i_move16_l A R128 (sh * 8) a
  | R256 => if use_avx2 A then Ok (mm_bsrli 256 (sh * 8) a) else NotImpl
  | R512 => if use_avx512f A then i_move4_l A R512 (sh * 2) a else NotImpl
  end.
(** an operation on uint8<32>: one register with AVX2, else an array of two
    (SIMDPP_VEC_ARRAY_IMPL1, move_l.h:77-82) *)
Definition u8x32 (A : arch) (f : rsz -> Z -> res Z) (a : Z) : res Z :=
  if use_avx2 A then f R256 a
  else let* lo := f R128 (mm_extract128 0 a) in
       let* hi := f R128 (mm_extract128 1 a) in Ok (mm_combine128 lo hi).
(** move_l.h: float32 204-240; float64 250-282 *)
Definition i_move4f_l (A : arch) (s : rsz) (sh a : Z) : res Z :=
  match s with
  | R128 => if use_null A || use_neon_no_flt_sp A then Ok (null_move_n_l 32 sh a)
            else i_move16_l A R128 (sh * 4) a
  | R256 => if use_avx A then u8x32 A (fun s => i_move16_l A s (sh * 4)) a else NotImpl
  | R512 => if use_avx512f A then Ok
      (if sh =? 1 then mm_maskz 32 512 0x7777 (mm_shuffle_ps 512 (MM_SHUFFLE 3 3 2 1) a a)
       else if sh =? 2 then mm_maskz 32 512 0x3333 (mm_shuffle_ps 512 (MM_SHUFFLE 3 3 3 2) a a)
       else if sh =? 3 then mm_maskz 32 512 0x1111 (mm_shuffle_ps 512 (MM_SHUFFLE 3 3 3 3) a a)
       else if sh =? 4 then 0 else a) else NotImpl
  end.
Definition i_move2f_l (A : arch) (s : rsz) (sh a : Z) : res Z :=
  match s with
  | R128 => if use_sse2 A || use_neon64 A || use_vsx206 A || use_msa A then i_move16_l A R128 (sh * 8) a
            else if use_null A || use_neon32 A || use_altivec A then Ok (null_move_n_l 64 sh a) else UB
  | R256 => if use_avx A then u8x32 A (fun s => i_move16_l A s (sh * 8)) a else NotImpl
  | R512 => if use_avx512f A then Ok
      (if sh =? 1 then mm_maskz 64 512 0x55 (mm_shuffle_pd 512 (mask_2x2_4 1 1) a a)
       else if sh =? 2 then 0 else a) else NotImpl
  end.

(** move_r.h:25-62; 73-99; 109-145; 155-181; 191-227; 237-268 *)
Definition i_move16_r (A : arch) (s : rsz) (sh a : Z) : res Z :=
  match s with
  | R128 =>
      if use_null A then Ok (null_move_n_r 8 sh a)
      else if use_sse2 A then Ok (mm_bslli 128 sh a)
      else if use_neon A then Ok (vext 8 128 (16 - sh) 0 a)
      else if use_altivec A then Ok (vec_sld_biendian (16 - sh) 0 a)
      else if use_msa A then Ok (msa_sld a 0 (16 - sh)) else UB
  | R256 => if use_avx2 A then Ok (mm_bslli 256 sh a) else NotImpl
  | R512 => if use_avx512bw A then Ok (mm_bslli 512 sh a) else NotImpl
  end.
Definition i_move8_r (A : arch) (s : rsz) (sh a : Z) : res Z :=
  match s with
  | R128 => if use_null A then Ok (null_move_n_r 16 sh a) else i_move16_r A R128 (sh * 2) a
  | R256 => if use_avx2 A then Ok (mm_bslli 256 (sh * 2) a) else NotImpl
  | R512 => if use_avx512bw A then Ok (mm_bslli 512 (sh * 2) a) else NotImpl
  end.
Definition i_move4_r (A : arch) (s : rsz) (sh a : Z) : res Z :=
  match s with
  | R128 => if use_null A then Ok (null_move_n_r 32 sh a) else i_move16_r A R128 (sh * 4) a
  | R256 => if use_avx2 A then Ok (mm_bslli 256 (sh * 4) a) else NotImpl
  | R512 => if use_avx512f A then Ok
      (if sh =? 1 then mm_maskz 32 512 0xeeee (mm_shuffle_epi32 512 (MM_SHUFFLE 2 1 0 0) a)
       else if sh =? 2 then mm_maskz 32 512 0xcccc (mm_shuffle_epi32 512 (MM_SHUFFLE 1 0 0 0) a)
       else if sh =? 3 then mm_maskz 32 512 0x8888 (mm_shuffle_epi32 512 (MM_SHUFFLE 0 0 0 0) a)
       else if sh =? 4 then 0 else a) else NotImpl
  end.
Definition i_move2_r (A : arch) (s : rsz) (sh a : Z) : res Z :=
  match s with
  | R128 => if scalar64 A then Ok (null_move_n_r 64 sh a) else i_move16_r A R128 (sh * 8) a
  | R256 => if use_avx2 A then Ok (mm_bslli 256 (sh * 8) a) else NotImpl
  | R512 => if use_avx512f A then i_move4_r A R512 (sh * 2) a else NotImpl
  end.
Definition i_move4f_r (A : arch) (s : rsz) (sh a : Z) : res Z :=
  match s with
  | R128 => if use_null A || use_neon_no_flt_sp A then Ok (null_move_n_r 32 sh a)
            else i_move16_r A R128 (sh * 4) a
  | R256 => if use_avx A then u8x32 A (fun s => i_move16_r A s (sh * 4)) a else NotImpl
  | R512 => if use_avx512f A then Ok
      (if sh =? 1 then mm_maskz 32 512 0xeeee (mm_shuffle_ps 512 (MM_SHUFFLE 2 1 0 0) a a)
       else if sh =? 2 then mm_maskz 32 512 0xcccc (mm_shuffle_ps 512 (MM_SHUFFLE 1 0 0 0) a a)
       else if sh =? 3 then mm_maskz 32 512 0x8888 (mm_shuffle_ps 512 (MM_SHUFFLE 0 0 0 0) a a)
       else if sh =? 4 then 0 else a) else NotImpl
  end.
Definition i_move2f_r (A : arch) (s : rsz) (sh a : Z) : res Z :=
  match s with
  | R128 => if use_sse2 A || use_neon64 A || use_vsx206 A || use_msa A then i_move16_r A R128 (sh * 8) a
            else if use_null A || use_neon A || use_altivec A then Ok (null_move_n_r 64 sh a) else UB
  | R256 => if use_avx A then u8x32 A (fun s => i_move16_r A s (sh * 8)) a else NotImpl
  | R512 => if use_avx512f A then Ok
      (if sh =? 1 then mm_maskz 64 512 0xaa (mm_shuffle_pd 512 (mask_2x2_4 0 0) a a)
       else if sh =? 2 then 0 else a) else NotImpl
  end.

(** the overload by element type *)
Definition i_move_l (A : arch) (e : et) : rsz -> Z -> Z -> res Z :=
  match e with I8 => i_move16_l A | I16 => i_move8_l A | I32 => i_move4_l A | I64 => i_move2_l A
             | F32 => i_move4f_l A | F64 => i_move2f_l A end.
Definition i_move_r (A : arch) (e : et) : rsz -> Z -> Z -> res Z :=
  match e with I8 => i_move16_r A | I16 => i_move8_r A | I32 => i_move4_r A | I64 => i_move2_r A
             | F32 => i_move4f_r A | F64 => i_move2f_r A end.
(** the wrappers for a count of 0 and of the full width: move_l.h:294-356,
    move_r.h:280-342 *)
Definition i_move_l_wrapper A e s (sh a : Z) : res Z :=
  if sh =? 0 then Ok a else if sh =? en e then Ok 0 else i_move_l A e s sh a.
Definition i_move_r_wrapper A e s (sh a : Z) : res Z :=
  if sh =? 0 then Ok a else if sh =? en e then Ok 0 else i_move_r A e s sh a.
