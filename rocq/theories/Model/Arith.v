(** Integer addition, subtraction, saturation and negation:
    simdpp/detail/insn/{i_add,i_sub,i_add_sat,i_sub_sat,i_neg}.h. *)
From Verif Require Export Model.Bitwise Base.Vec.

(** insn/i_add.h: u8 25-55, u16 59-89, u32 93-123, u64 127-157 *)
Definition i_add (A : arch) (w : ew) (s : rsz) (a b : Z) : res Z :=
  match s with
  | R128 =>
      match w with
      | W64 =>
          if use_sse2 A then Ok (mm_add 64 128 a b)
          else if use_neon A then Ok (vaddq 64 a b)
          else if use_vsx207 A then Ok (vec_add 64 a b)
          else if use_null A || use_altivec A then null_add (ut W64) 128 a b
          else if use_msa A then Ok (msa_addv 64 a b) else UB
      | _ =>
          if use_null A then null_add (ut w) 128 a b
          else if use_sse2 A then Ok (mm_add (wb w) 128 a b)
          else if use_neon A then Ok (vaddq (wb w) a b)
          else if use_altivec A then Ok (vec_add (wb w) a b)
          else if use_msa A then Ok (msa_addv (wb w) a b) else UB
      end
  | R256 => if use_avx2 A then Ok (mm_add (wb w) 256 a b) else NotImpl
  | R512 => if nat512 A w then Ok (mm_add (wb w) 512 a b) else NotImpl
  end.

(** insn/i_sub.h: u8 25-55, u16 59-89, u32 93-123, u64 127-157 *)
Definition i_sub (A : arch) (w : ew) (s : rsz) (a b : Z) : res Z :=
  match s with
  | R128 =>
      match w with
      | W64 =>
          if use_sse2 A then Ok (mm_sub 64 128 a b)
          else if use_neon A then Ok (vsubq 64 a b)
          else if use_vsx207 A then Ok (vec_sub 64 a b)
          else if use_msa A then Ok (msa_subv 64 a b)
          else if use_null A || use_altivec A then null_sub (ut W64) 128 a b else UB
      | _ =>
          if use_null A then null_sub (ut w) 128 a b
          else if use_sse2 A then Ok (mm_sub (wb w) 128 a b)
          else if use_neon A then Ok (vsubq (wb w) a b)
          else if use_altivec A then Ok (vec_sub (wb w) a b)
          else if use_msa A then Ok (msa_subv (wb w) a b) else UB
      end
  | R256 => if use_avx2 A then Ok (mm_sub (wb w) 256 a b) else NotImpl
  | R512 => if nat512 A w then Ok (mm_sub (wb w) 512 a b) else NotImpl
  end.

(** 8- and 16-bit elements, the only ones with saturating operations and byte/half-word
    specific functions; [n16] says whether 16-bit. *)
Definition sat_ladder (A : arch) (w : ew) (s : rsz)
    (nul : Z -> Z -> res Z) (x86 : Z -> Z -> Z -> Z -> Z) (neon ppc msa : Z -> Z -> Z -> Z)
    (a b : Z) : res Z :=
  match s with
  | R128 =>
      if use_null A then nul a b
      else if use_sse2 A then Ok (x86 (wb w) 128 a b)
      else if use_neon A then Ok (neon (wb w) a b)
      else if use_altivec A then Ok (ppc (wb w) a b)
      else if use_msa A then Ok (msa (wb w) a b) else UB
  | R256 => if use_avx2 A then Ok (x86 (wb w) 256 a b) else NotImpl
  | R512 => if use_avx512bw A then Ok (x86 (wb w) 512 a b) else NotImpl
  end.
(** insn/i_add_sat.h: i8 25-54, i16 59-88, u8 93-122, u16 127-156 (w = W8 or W16) *)
Definition i_iadd_sat A w s :=
  sat_ladder A w s (null_add_sat (st w) 128) mm_adds_epi vqaddq_s vec_adds_s msa_adds_s.
Definition i_uadd_sat A w s :=
  sat_ladder A w s (null_add_sat (ut w) 128) mm_adds_epu vqaddq_u vec_adds_u msa_adds_u.
(** insn/i_sub_sat.h: i8 24-53, i16 58-87, u8 92-121, u16 126-155 *)
Definition i_isub_sat A w s :=
  sat_ladder A w s (null_sub_sat (st w) 128) mm_subs_epi vqsubq_s vec_subs_s msa_subs_s.
Definition i_usub_sat A w s :=
  sat_ladder A w s (null_sub_sat (ut w) 128) mm_subs_epu vqsubq_u vec_subs_u msa_subs_u.

(** insn/i_neg.h: i8 25-51, i16 55-81, i32 85-111, i64 115-139; zero = make_zero() *)
Definition i_neg (A : arch) (w : ew) (s : rsz) (a : Z) : res Z :=
  match s with
  | R128 =>
      match w with
      | W64 =>
          if use_sse2 A || use_neon A || use_vsx207 A || use_msa A then i_sub A W64 R128 0 a
          else if use_null A || use_altivec A then null_neg (st W64) 128 a else UB
      | _ =>
          if use_null A then null_neg (st w) 128 a
          else if use_sse2 A || use_altivec A || use_msa A then i_sub A w R128 0 a
          else if use_neon A then Ok (vnegq (wb w) a) else UB
      end
  | R256 => if use_avx2 A then i_sub A w R256 0 a else NotImpl
  | R512 => if nat512 A w then i_sub A w R512 0 a else NotImpl
  end.

(** The API: core/i_add.h, i_sub.h, i_add_sat.h, i_sub_sat.h, i_neg.h call the
    instruction through SIMDPP_VEC_ARRAY_IMPL on every register. *)
Definition add A w s := vec_impl2 (i_add A w s).
Definition sub A w s := vec_impl2 (i_sub A w s).
Definition iadd_sat A w s := vec_impl2 (i_iadd_sat A w s).
Definition uadd_sat A w s := vec_impl2 (i_uadd_sat A w s).
Definition isub_sat A w s := vec_impl2 (i_isub_sat A w s).
Definition usub_sat A w s := vec_impl2 (i_usub_sat A w s).
Definition neg A w s := vec_impl1 (i_neg A w s).
