(** Integer absolute value: simdpp/detail/insn/i_abs.h. *)
From Verif Require Export Model.Arith Model.Cmp Model.Floats Model.Shift Model.Permute.

(** The three instructions [r = bit_xor(a, t); r = sub(r, t); return r;] used by
    i_abs.h 40-41, 82-83, 124-125, 167-168, 178-179, 207-208. *)
Definition cond_neg (A : arch) (w : ew) (s : rsz) (a t : Z) : res Z :=
  let* r := i_bit_xor A w s a t in
  i_sub A w s r t.

(** SSE2 branch of the 8, 16 and 32-bit functions (38-42, 80-84, 122-126):
    [t = cmp_lt(a, 0)] assigned to a vector, i.e. unmasked. *)
Definition abs_sse2 (A : arch) (w : ew) (a : Z) : res Z :=
  let* z := konst A w R128 0 in
  let* m := i_cmp_lt A true w R128 a z in
  let* t := unmask A w R128 m in
  cond_neg A w R128 a t.

(** SSE2 branch of the 64-bit function, 161-169 *)
Definition abs64_sse2 (A : arch) (a : Z) : res Z :=
  let* k := konst A W64 R128 0x8000000000000000 in
  let* ta := i_bit_and A W64 R128 a k in
  let* ta := i_shift_r_t A false W32 R128 1 ta in
  let* m := f_cmp_neq A true R128 ta 0 in
  let* t := unmask_f A true R128 m in
  cond_neg A W64 R128 a t.

(** NEON branch of the 64-bit function, 171-180 *)
Definition abs64_neon (A : arch) (a : Z) : res Z :=
  let* z := i_shift_r_t A false W64 R128 63 a in
  let* k := konst A W32 R128 0 in
  let* m := i_cmp_eq A W32 R128 z k in
  let* z := unmask A W32 R128 m in
  let* z := i_permute4 A I32 R128 0 0 2 2 z in
  let* t := i_bit_not A W32 R128 z in
  cond_neg A W64 R128 a t.

(** AVX2 without AVX512VL, 64-bit, 203-209 *)
Definition abs64_avx2 (A : arch) (a : Z) : res Z :=
  cond_neg A W64 R256 a (mm_cmpgt 64 256 0 a).

(** insn/i_abs.h: i8 31-68, i16 73-110, i32 115-152, i64 157-216 *)
Definition i_iabs (A : arch) (w : ew) (s : rsz) (a : Z) : res Z :=
  match s with
  | R128 =>
      match w with
      | W64 =>
          if use_avx512vl A then Ok (mm_abs 64 128 a)
          else if use_sse2 A then abs64_sse2 A a
          else if use_neon A then abs64_neon A a
          else if use_vsx207 A then Ok (vec_abs 64 a)
          else if use_msa A then Ok (msa_add_a 64 a 0)
          else if use_null A || use_altivec A then null_abs (st W64) 128 a else UB
      | _ =>
          if use_null A then null_abs (st w) 128 a
          else if use_ssse3 A then Ok (mm_abs (wb w) 128 a)
          else if use_sse2 A then abs_sse2 A w a
          else if use_neon A then Ok (vabsq (wb w) a)
          else if use_altivec A then Ok (vec_abs (wb w) a)
          else if use_msa A then Ok (msa_add_a (wb w) a 0) else UB
      end
  | R256 =>
      if use_avx2 A then
        match w with
        | W64 => if use_avx512vl A then Ok (mm_abs 64 256 a) else abs64_avx2 A a
        | _ => Ok (mm_abs (wb w) 256 a)
        end
      else NotImpl
  | R512 => if nat512 A w then Ok (mm_abs (wb w) 512 a) else NotImpl
  end.

(** core/i_abs.h 38-110 [abs]: the unsigned result has the bits of the signed one
    (array trailer i_abs.h 220-223). *)
Definition abs A w s := vec_impl1 (i_iabs A w s).
