(** Broadcast of a scalar: simdpp/detail/insn/set_splat.h, core/set_splat.h. *)
From Verif Require Export Model.Permute.

Definition iet (w : ew) : et := match w with W8 => I8 | W16 => I16 | W32 => I32 | W64 => I64 end.
(** altivec::load1(v, rv), vec_ld, __msa_ld_w: element 0 is v0, the others come from
    uninitialised array elements ([junk]: any bits) *)
Definition first_elt (w junk v0 : Z) : Z := pack w 128 (fun i => if i =? 0 then v0 else lane w i junk).
(** __msa_insert_w(vr, i, x): lane i replaced *)
Definition msa_insert32 (vr i x : Z) : Z := pack 32 128 (fun k => if k =? i then x else lane 32 k vr).

(** set_splat.h:141-178 *)
Definition i_set_splat32 (A : arch) (s : rsz) (junk v0 : Z) : res Z :=
  match s with
  | R128 =>
      if use_null A then Ok (null_make_vec 32 128 (fun _ => v0))
      else if use_avx2 A then Ok (mm_broadcast 32 128 (mm_cvtsi32 v0))
      else if use_sse2 A then i_permute4 A I32 R128 0 0 0 0 (mm_cvtsi32 v0)
      else if use_neon A then Ok (vdupq 32 v0)
      else if use_altivec A then i_splat_n A I32 R128 0 (first_elt 32 junk v0)
      else if use_msa A then Ok (msa_fill 32 v0) else UB
  | R256 => if use_avx2 A then Ok (mm_broadcast 32 256 (mm_cvtsi32 v0)) else NotImpl
  | R512 => if use_avx512f A then Ok (mm_set1 32 512 v0) else NotImpl
  end.
(** set_splat.h:29-70.  [v0 * 0x01010101] is computed in int: v0 is promoted. *)
Definition i_set_splat8 (A : arch) (s : rsz) (junk v0 : Z) : res Z :=
  match s with
  | R128 =>
      if use_null A then Ok (null_make_vec 8 128 (fun _ => v0))
      else if use_avx2 A then Ok (mm_broadcast 8 128 (mm_cvtsi32 v0))
      else if use_sse2 A then
        let* u0 := c_mul (c_u8, v0) (c_lit 0x01010101) in i_set_splat32 A R128 junk (wrap 32 (snd u0))
      else if use_neon A then Ok (vdupq 8 v0)
      else if use_altivec A then i_splat_n A I8 R128 0 (first_elt 8 junk v0)
      else if use_msa A then Ok (msa_fill 8 v0) else UB
  | R256 => if use_avx2 A then Ok (mm_broadcast 8 256 (mm_cvtsi32 v0)) else NotImpl
  | R512 => if use_avx512bw A then Ok (mm_broadcast 8 512 (mm_cvtsi32 v0)) else NotImpl
  end.
(** set_splat.h:85-126.  [v0 | v0 << 16] is computed in int. *)
Definition i_set_splat16 (A : arch) (s : rsz) (junk v0 : Z) : res Z :=
  match s with
  | R128 =>
      if use_null A then Ok (null_make_vec 16 128 (fun _ => v0))
      else if use_avx2 A then Ok (mm_broadcast 16 128 (mm_cvtsi32 v0))
      else if use_sse2 A then
        let* h := c_shl (c_u16, v0) (c_lit 16) in
        let* u0 := c_or (c_u16, v0) h in i_set_splat32 A R128 junk (wrap 32 (snd u0))
      else if use_neon A then Ok (vdupq 16 v0)
      else if use_altivec A then i_splat_n A I16 R128 0 (first_elt 16 junk v0)
      else if use_msa A then Ok (msa_fill 16 v0) else UB
  | R256 => if use_avx2 A then Ok (mm_broadcast 16 256 (mm_cvtsi32 v0)) else NotImpl
  | R512 => if use_avx512bw A then Ok (mm_broadcast 16 512 (mm_cvtsi32 v0)) else NotImpl
  end.
(** the 64-bit scalar in the low lane: set_splat.h:196-199, 236-239 (32-bit targets), 202, 242 *)
Definition lo64 (A : arch) (v0 : Z) : res Z :=
  if use_64 A then Ok (mm_cvtsi64 v0)
  else i_zip A I32 R128 false (mm_cvtsi32 (wrap 32 v0)) (mm_cvtsi32 (wrap 32 (Z.shiftr v0 32))).
(** set_splat.h:193-254.  The MSA branch for 64-bit targets (line 214) does not compile
    (v0.native()); valid_arch excludes that configuration. *)
Definition i_set_splat64 (A : arch) (s : rsz) (junk v0 : Z) : res Z :=
  match s with
  | R128 =>
      if use_sse2 A then let* v := lo64 A v0 in i_permute2 A I64 R128 0 0 v
      else if use_neon A then Ok (vdupq 64 v0)
      else if use_vsx207 A then i_splat_n A I64 R128 0 (first_elt 64 junk v0)
      else if use_msa A then
        (if use_64 A then UB
         else Ok (msa_splat 64 0 (msa_insert32 (msa_insert32 junk 0 (wrap 32 v0)) 1 (wrap 32 (Z.shiftr v0 32)))))
      else if use_null A || use_altivec A then Ok (null_make_vec 64 128 (fun _ => v0)) else UB
  | R256 => if use_avx2 A then let* a := lo64 A v0 in Ok (mm_broadcast 64 256 a) else NotImpl
  | R512 => if use_avx512f A then Ok (mm_set1 64 512 v0) else NotImpl
  end.
(** set_splat.h:269-306; v0: the bits of the float *)
Definition i_set_splat_f32 (A : arch) (s : rsz) (junk v0 : Z) : res Z :=
  let r128 :=
      if use_null A || use_neon_no_flt_sp A then Ok (null_make_vec 32 128 (fun _ => v0))
      else if use_sse2 A then Ok (mm_set1 32 128 v0)
      else if use_neon A then Ok (vdupq 32 v0)
      else if use_altivec A then i_splat_n A F32 R128 0 (first_elt 32 junk v0)
      else if use_msa A then Ok (msa_splat 32 0 (first_elt 32 junk v0)) else UB in
  match s with
  | R128 => r128
  | R256 => if use_avx A then Ok (mm_set1 32 256 v0) else NotImpl
  | R512 => if use_avx512f A then let* a := r128 in Ok (pack 128 512 (fun _ => a)) else NotImpl
  end.
(** set_splat.h:329-366 *)
Definition i_set_splat_f64 (A : arch) (s : rsz) (junk v0 : Z) : res Z :=
  match s with
  | R128 =>
      if use_sse2 A then Ok (mm_set1 64 128 v0)
      else if use_neon64 A then Ok (vdupq 64 v0)
      else if use_vsx206 A then i_splat_n A F64 R128 0 (first_elt 64 junk v0)
      else if use_msa A then Ok (msa_splat 64 0 (first_elt 64 junk v0))
      else if use_null A || use_neon A || use_altivec A then Ok (null_make_vec 64 128 (fun _ => v0)) else UB
  | R256 => if use_avx A then Ok (mm_set1 64 256 v0) else NotImpl
  | R512 => if use_avx512f A then (if use_avx A then Ok (pack 256 512 (fun _ => mm_set1 64 256 v0)) else NotImpl)
            else NotImpl
  end.
Definition i_set_splat (A : arch) (e : et) (s : rsz) (junk v0 : Z) : res Z :=
  match e with
  | I8 => i_set_splat8 A s junk v0 | I16 => i_set_splat16 A s junk v0
  | I32 => i_set_splat32 A s junk v0 | I64 => i_set_splat64 A s junk v0
  | F32 => i_set_splat_f32 A s junk v0 | F64 => i_set_splat_f64 A s junk v0
  end.
(** set_splat.h:72-80 etc. and i_splat_any (380-390): the scalar is converted to the element
    type; every register of a long vector receives the same value.  core/set_splat.h:32-48 *)
Definition set_splat (A : arch) (e : et) (s : rsz) (n : nat) (junk x : Z) : res vec :=
  let* t := i_set_splat A e s junk (wrap (eb e) x) in Ok (repeat t n).
(** splat(x) inside other functions; by [i_set_splat_ok] the result does not depend on [junk] *)
Definition splat_rt (A : arch) (w : ew) (s : rsz) (x : Z) : res Z := i_set_splat A (iet w) s 0 (wrap (wb w) x).
