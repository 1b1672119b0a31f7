(** Population count: core/i_popcnt.h, detail/insn/i_popcnt.h, null/bitwise.h:169-220. *)
From Coq Require Export ZArith List Bool.
From Verif Require Export Base.Bits Base.Cpp Base.Arch Base.Isa Base.Vec Base.IsaShuf Model.Null Model.Bitwise
  Model.Arith Model.Shift Model.SetSplat Model.Mul Model.Extract.
Export ListNotations.
Open Scope Z_scope.

(** Instructions: POPCNT r32/r64, VCNT.8, vpopcntb/h/w/d (POWER8), PCNT.df (MSA). *)
Definition bits_set w x := fold_right Z.add 0 (map (fun i => Z.b2z (Z.testbit x i)) (zrange w)).
Definition mm_popcnt w x := bits_set w x.
Definition vcntq_u8 a := v1 8 128 (bits_set 8) a.
Definition vec_vpopcnt w a := v1 w 128 (bits_set w) a.
Definition msa_pcnt w a := v1 w 128 (bits_set w) a.

(** null/bitwise.h:169-179 el_popcnt8, 182-194 el_popcnt16, 197-207 el_popcnt32, 210-220
    el_popcnt64.  [pop_head] is the part common to the four: the three assignments to v, each
    converted back to the element type t. *)
Definition pop_head (t : cty) (m55 m33 m0f : Z) (v : cval) : res cval :=
  let* s1 := c_shr v (c_lit 1) in let* q := c_and s1 (t, m55) in let* d := c_sub v q in
  let v := ccast t d in
  let* l := c_and v (t, m33) in let* s2 := c_shr v (c_lit 2) in let* h := c_and s2 (t, m33) in let* d := c_add l h in
  let v := ccast t d in
  let* s4 := c_shr v (c_lit 4) in let* d := c_add v s4 in let* d := c_and d (t, m0f) in
  Ok (ccast t d).
Definition el_popcnt (w : ew) (v : cval) : res cval :=
  match w with
  | W8 => pop_head c_u8 0x55 0x33 0x0f v
  | W16 => let* v := pop_head c_u16 0x5555 0x3333 0x0f0f v in
           let* s := c_shr v (c_lit 8) in let* d := c_add v s in let v := ccast c_u16 d in
           let* d := c_and v (c_lit 0xff) in Ok (ccast c_u16 d)
  | W32 => let* v := pop_head c_u32 0x55555555 0x33333333 0x0f0f0f0f v in
           let* m := c_mul v (c_lit 0x01010101) in let* d := c_shr m (c_lit 24) in Ok (ccast c_u32 d)
  | W64 => let* v := pop_head c_u64 0x5555555555555555 0x3333333333333333 0x0f0f0f0f0f0f0f0f v in
           let* m := c_mul v (c_i64, 0x0101010101010101) in let* d := c_shr m (c_lit 56) in Ok (ccast c_u64 d)
  end.

(** The three steps common to v_emul_popcnt_u8 (i_popcnt.h:32-48, computed on 16-bit lanes),
    u16 (88-104), u32 (145-167), u64 (221-239). *)
Definition emul_head (A : arch) (w : ew) (s : rsz) (k55 k33 k0f p : Z) : res Z :=
  let* m55 := splat_rt A w s k55 in let* m33 := splat_rt A w s k33 in let* m0f := splat_rt A w s k0f in
  let* t := i_shift_r_t A false w s 1 p in let* t := i_bit_and A w s t m55 in let* p := i_sub A w s p t in
  let* x := i_bit_and A w s p m33 in let* y := i_shift_r_t A false w s 2 p in let* y := i_bit_and A w s y m33 in
  let* p := i_add A w s x y in
  let* t := i_shift_r_t A false w s 4 p in let* t := i_add A w s p t in i_bit_and A w s t m0f.
Definition emul_popcnt_u8 (A : arch) (s : rsz) (a : Z) : res Z := emul_head A W16 s 0x5555 0x3333 0x0f0f a.
(** p = add(p, shift_r<c>(p)) *)
Definition fold_shift (A : arch) (w : ew) (s : rsz) (c p : Z) : res Z :=
  let* t := i_shift_r_t A false w s c p in i_add A w s p t.
Definition mask_ff (A : arch) (w : ew) (s : rsz) (p : Z) : res Z :=
  let* m := splat_rt A w s 0xff in i_bit_and A w s p m.
Definition emul_popcnt_u16 (A : arch) (s : rsz) (a : Z) : res Z :=
  let* p := emul_head A W16 s 0x5555 0x3333 0x0f0f a in
  let* p := fold_shift A W16 s 8 p in mask_ff A W16 s p.
Definition emul_popcnt_u32 (A : arch) (s : rsz) (a : Z) : res Z :=
  let* p := emul_head A W32 s 0x55555555 0x33333333 0x0f0f0f0f a in
  if use_sse41 A || use_neon A || use_msa A then
    let* m01 := splat_rt A W32 s 0x01010101 in let* t := i_mul_lo32 A s p m01 in i_shift_r_t A false W32 s 24 t
  else
    let* p := fold_shift A W32 s 8 p in let* p := fold_shift A W32 s 16 p in mask_ff A W32 s p.
Definition emul_popcnt_u64 (A : arch) (s : rsz) (a : Z) : res Z :=
  let* p := emul_head A W64 s 0x5555555555555555 0x3333333333333333 0x0f0f0f0f0f0f0f0f a in
  let* p := fold_shift A W64 s 8 p in let* p := fold_shift A W64 s 16 p in let* p := fold_shift A W64 s 32 p in
  mask_ff A W64 s p.

(** i_popcnt.h:170-217 (u32) and 242-280 (u64) with the POPCNT instruction: the counts are
    extracted, counted in general registers and inserted as 16-bit lanes. Stack memory is
    not used by extract/insert on x86 (frame address 0). *)
Definition ext (A : arch) (e : et) (i a : Z) : res Z := i_extract A 0 false e R128 i a.
Definition ins16 (A : arch) (i r x : Z) : res Z := i_insert A 0 I16 R128 i r (wrap 16 x).
Definition popcnt_insn32 (A : arch) (a : Z) : res Z :=
  let* x0 := ext A I32 0 a in let* x1 := ext A I32 1 a in let* x2 := ext A I32 2 a in let* x3 := ext A I32 3 a in
  let r := mm_cvtsi32 (mm_popcnt 32 x0) in
  let* r := ins16 A 2 r (mm_popcnt 32 x1) in let* r := ins16 A 4 r (mm_popcnt 32 x2) in
  ins16 A 6 r (mm_popcnt 32 x3).
Definition popcnt_insn64 (A : arch) (a : Z) : res Z :=
  let fin a0 a1 := ins16 A 4 (mm_cvtsi32 a0) a1 in
  if use_64 A then
    let* x0 := ext A I64 0 a in let* x1 := ext A I64 1 a in fin (mm_popcnt 64 x0) (mm_popcnt 64 x1)
  else
    let* x0 := ext A I32 0 a in let* x1 := ext A I32 1 a in let* x2 := ext A I32 2 a in let* x3 := ext A I32 3 a in
    fin (wrap 32 (mm_popcnt 32 x0 + mm_popcnt 32 x1)) (wrap 32 (mm_popcnt 32 x2 + mm_popcnt 32 x3)).

(** insn/i_popcnt.h: u8 51-84, u16 107-141, u32 170-217, u64 242-311 *)
Definition i_popcnt_64 (A : arch) (a : Z) : res Z :=
  if use_null A then nloop c_u64 128 (fun i => el_popcnt W64 (el c_u64 a i))
  else if use_popcnt A then popcnt_insn64 A a
  else if use_sse2 A then let* p8 := emul_popcnt_u8 A R128 a in Ok (mm_sad_epu8 128 p8 0)
  else if use_neon A then Ok (vpaddlq_u 32 (vpaddlq_u 16 (vpaddlq_u 8 (vcntq_u8 a))))
  else if use_vsx207 A then Ok (vec_vpopcnt 64 a)
  else if use_msa A then Ok (msa_pcnt 64 a)
  else emul_popcnt_u64 A R128 a.
Definition i_popcnt (A : arch) (w : ew) (s : rsz) (a : Z) : res Z :=
  match w with
  | W8 =>
      match s with
      | R128 =>
          if use_null A then nloop c_u8 128 (fun i => el_popcnt W8 (el c_u8 a i))
          else if use_neon A then Ok (vcntq_u8 a)
          else if use_vsx207 A then Ok (vec_vpopcnt 8 a)
          else if use_msa A then Ok (msa_pcnt 8 a)
          else emul_popcnt_u8 A R128 a
      | R256 => if use_avx2 A then emul_popcnt_u8 A R256 a else NotImpl
      | R512 => if use_avx512bw A then emul_popcnt_u8 A R512 a else NotImpl
      end
  | W16 =>
      match s with
      | R128 =>
          if use_null A then nloop c_u16 128 (fun i => el_popcnt W16 (el c_u16 a i))
          else if use_neon A then Ok (vpaddlq_u 8 (vcntq_u8 a))
          else if use_vsx207 A then Ok (vec_vpopcnt 16 a)
          else if use_msa A then Ok (msa_pcnt 16 a)
          else emul_popcnt_u16 A R128 a
      | R256 => if use_avx2 A then emul_popcnt_u16 A R256 a else NotImpl
      | R512 => if use_avx512bw A then emul_popcnt_u16 A R512 a else NotImpl
      end
  | W32 =>
      match s with
      | R128 =>
          if use_null A then nloop c_u32 128 (fun i => el_popcnt W32 (el c_u32 a i))
          else if use_popcnt A then popcnt_insn32 A a
          else if use_neon A then Ok (vpaddlq_u 16 (vpaddlq_u 8 (vcntq_u8 a)))
          else if use_vsx207 A then Ok (vec_vpopcnt 32 a)
          else if use_msa A then Ok (msa_pcnt 32 a)
          else emul_popcnt_u32 A R128 a
      | R256 => if use_avx2 A then emul_popcnt_u32 A R256 a else NotImpl
      | R512 => if use_avx512f A then emul_popcnt_u32 A R512 a else NotImpl
      end
  | W64 =>
      match s with
      | R128 => i_popcnt_64 A a
      | R256 =>
          if use_avx2 A then
            if use_popcnt A && use_64 A then
              let* r0 := i_popcnt_64 A (mm_extract128 0 a) in let* r1 := i_popcnt_64 A (mm_extract128 1 a) in
              Ok (mm_combine128 r0 r1)
            else let* p8 := emul_popcnt_u8 A R256 a in Ok (mm_sad_epu8 256 p8 0)
          else NotImpl
      | R512 =>
          if use_avx512f A then
            if use_avx512bw A then let* p8 := emul_popcnt_u8 A R512 a in Ok (mm_sad_epu8 512 p8 0)
            else emul_popcnt_u64 A R512 a
          else NotImpl
      end
  end.
(** core/i_popcnt.h:31-77: signed vectors are reinterpreted as unsigned; registers of a long
    vector one by one (SIMDPP_VEC_ARRAY_IMPL1, i_popcnt.h:313-316) *)
Definition popcnt (A : arch) (w : ew) (s : rsz) (va : vec) : res vec := vec_impl1 (i_popcnt A w s) va.
