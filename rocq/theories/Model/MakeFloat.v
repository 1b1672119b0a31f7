(** make_float, make_int and make_uint with any number of values assigned to float vectors:
    core/make_{float,int,uint}.h, detail/insn/make_const.h:29-133. *)
From Verif Require Export Model.MakeConst Model.FConv64.

(** The arguments are doubles (make_float: expr_vec_make_const<double,N>), int64_t (make_int) or
    uint64_t (make_uint), as 64-bit patterns; an element is the argument converted to float or
    double by C++ (round to nearest). *)
Inductive csrc := FromDouble | FromInt | FromUint.
Definition as_elem (k : csrc) (d : bool) (x : Z) : Z :=
  match k with
  | FromDouble => if d then x else f_narrow x
  | FromInt => f_of_int (fw d) (sgn 64 x)
  | FromUint => f_of_int (fw d) x
  end.

(** make_const.h:29-47 (float32, N = 1, 2, NEON_FLT_SP only), 49-77 (float32<4>), 79-98
    (float32<8>, float32<16>); 100-117 (float64<2>), 119-133 (float64<4>, float64<8>) *)
Definition i_make_floats (c : csrc) (A : arch) (d : bool) (s : rsz) (l : list Z) (off : Z) : res Z :=
  let v k := as_elem c d (cval_at l (off + k)) in
  match s with
  | R128 =>
      if d then
        if use_sse2 A then Ok (mm_set 64 128 v)
        else if use_neon64 A then Ok (vld1q 64 v)
        else if use_vsx206 A then Ok (vec_lit 64 v)
        else if use_msa A then Ok (msa_lit 64 v)
        else if use_null A || use_neon A || use_altivec A then Ok (null_make_vec 64 128 v) else UB
      else
        let gen :=
          if use_null A || use_neon_no_flt_sp A then Ok (null_make_vec 32 128 v)
          else if use_sse2 A then Ok (mm_set 32 128 v)
          else if use_neon A then Ok (vld1q 32 v)
          else if use_altivec A then Ok (vec_lit 32 v)
          else if use_msa A then Ok (msa_lit 32 v) else UB in
        if use_neon_flt_sp A then
          match length l with
          | 1%nat => Ok (vdupq 32 (as_elem c d (cval_at l 0)))
          | 2%nat => let half := vld1 32 v in Ok (vcombine half half)
          | _ => gen
          end
        else gen
  | R256 => if use_avx A then Ok (mm_set (if d then 64 else 32) 256 v) else NotImpl
  | R512 => if use_avx512f A then Ok (mm_set (if d then 64 else 32) 512 v) else NotImpl
  end.
(** make_const.h:494-513: register i of a long vector starts at element off + base_length * i *)
Fixpoint make_floats_from (c : csrc) (A : arch) (d : bool) (s : rsz) (l : list Z) (off : Z) (n : nat) : res vec :=
  match n with
  | O => Ok []
  | S n => let* r := i_make_floats c A d s l off in
           let* rs := make_floats_from c A d s l (off + rbits s / fw d) n in
           Ok (r :: rs)
  end.
Definition make_floats (c : csrc) (A : arch) (d : bool) (s : rsz) (l : list Z) (n : nat) : res vec := make_floats_from c A d s l 0 n.
