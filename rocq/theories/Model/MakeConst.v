(** Constant vectors: simdpp/detail/insn/make_const.h, core/make_uint.h,
    core/make_int.h, core/splat_n etc. are in other files. *)
From Verif Require Export Base.Vec Base.Cpp Base.X86 Base.Neon Base.Ppc Base.Msa.

(** expr/vec_make_const (simdpp/expr.h: expr_vec_make_const::val): the list of the
    arguments, repeated cyclically.  Element type uint64_t or int64_t, so that every
    conversion to an element type is modular. *)
Definition cval_at (l : list Z) (k : Z) : Z := nth (Z.to_nat (k mod Z.of_nat (length l))) l 0.

(** detail/null/make_vec (detail/insn/../null: make_vec): element i is argument i *)
Definition null_make_vec (w R : Z) (f : Z -> Z) : Z := pack w R f.

(** make_const.h:233-236 make_uint32_uint8; :337-340 make_uint32_uint16.
    Arguments are converted to uint8_t / uint16_t. *)
Definition make_uint32_uint8 (a1 a2 a3 a4 : Z) : Z :=
  let b x := Z.land (wrap 8 x) 255 in
  Z.lor (Z.lor (Z.lor (b a1) (Z.shiftl (b a2) 8)) (Z.shiftl (b a3) 16)) (Z.shiftl (b a4) 24).
Definition make_uint32_uint16 (a1 a2 : Z) : Z :=
  let b x := Z.land (wrap 16 x) 65535 in Z.lor (b a1) (Z.shiftl (b a2) 16).

(** make_const.h: i_make_const(uint8<16>) :137-215 (the N = 1,2,4,8 overloads exist on
    NEON only), uint8<32> :217-230, uint8<64> :238-260; uint16 :265-334, :342-363;
    uint32 :367-427; uint64 :431-493 (not the MSVC 32-bit variants). *)
Definition i_make_const (A : arch) (w : ew) (s : rsz) (l : list Z) (off : Z) : res Z :=
  let v k := cval_at l (off + k) in
  let gen :=
    if use_null A then Ok (null_make_vec (wb w) 128 v)
    else if use_sse2 A then Ok (mm_set (wb w) 128 v)
    else if use_neon A then Ok (vld1q (wb w) v)
    else match w with
    | W64 => if use_vsx207 A then Ok (vec_lit 64 v)
             else if use_msa A then Ok (msa_lit 64 v)
             else if use_null A || use_altivec A then Ok (null_make_vec 64 128 v) else UB
    | _ => if use_altivec A then Ok (vec_lit (wb w) v)
           else if use_msa A then Ok (msa_lit (wb w) v) else UB
    end in
  match s with
  | R128 =>
    if use_neon A then
      match w, length l with
      | W8, 1%nat => Ok (vdupq 8 (wrap 8 (v 0)))
      | W8, 2%nat =>
          Ok (vdupq 16 (wrap 16 (Z.lor (Z.land (v 0) 255) (Z.shiftl (Z.land (v 1) 255) 8))))
      | W8, 4%nat =>
          Ok (vdupq 32 (wrap 32
            (Z.lor (Z.lor (Z.lor (Z.land (v 0) 255) (Z.shiftl (Z.land (v 1) 255) 8))
                          (Z.shiftl (Z.land (v 2) 255) 16)) (Z.shiftl (Z.land (v 3) 255) 24))))
      | W8, 8%nat => let half := vld1 8 v in Ok (vcombine half half)
      | W16, 1%nat => Ok (vdupq 16 (wrap 16 (v 0)))
      | W16, 2%nat =>
          Ok (vdupq 32 (wrap 32 (Z.lor (Z.land (v 0) 65535) (Z.shiftl (Z.land (v 1) 65535) 16))))
      | W16, 4%nat => let half := vld1 16 v in Ok (vcombine half half)
      | W32, 1%nat => Ok (vdupq 32 (wrap 32 (v 0)))
      | W32, 2%nat => let half := vld1 32 v in Ok (vcombine half half)
      | W64, 1%nat => let r0 := wrap 64 (v 0) in Ok (vcombine r0 r0)
      | _, _ => gen
      end
    else gen
  | R256 => if use_avx2 A then Ok (mm_set (wb w) 256 v) else NotImpl
  | R512 =>
    match w with
    | W8 => if use_avx512bw A then
        Ok (mm_set 32 512 (fun k =>
              make_uint32_uint8 (v (4 * k)) (v (4 * k + 1)) (v (4 * k + 2)) (v (4 * k + 3))))
        else NotImpl
    | W16 => if use_avx512bw A then
        Ok (mm_set 32 512 (fun k => make_uint32_uint16 (v (2 * k)) (v (2 * k + 1)))) else NotImpl
    | _ => if use_avx512f A then Ok (mm_set (wb w) 512 v) else NotImpl
    end
  end.

(** make_const.h:497-503: register i of a long vector starts at element
    off + base_length * i. *)
Fixpoint make_const_from (A : arch) (w : ew) (s : rsz) (l : list Z) (off : Z) (n : nat) : res vec :=
  match n with
  | O => Ok []
  | S n => let* r := i_make_const A w s l off in
           let* rs := make_const_from A w s l (off + rbits s / wb w) n in
           Ok (r :: rs)
  end.
Definition make_const (A : arch) (w : ew) (s : rsz) (l : list Z) (n : nat) : res vec :=
  make_const_from A w s l 0 n.

(** Scalar operands of the arithmetic functions ("bit_xor(a, 0x80)") and
    make_uint(c) with one argument: a one-element constant expression. *)
Definition konst (A : arch) (w : ew) (s : rsz) (c : Z) : res Z := i_make_const A w s [c] 0.
