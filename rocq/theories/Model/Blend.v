(** Lane selection: simdpp/detail/insn/blend.h, bit_select.h (integer overloads) and
    core/blend.h, core/bit_select.h. *)
From Verif Require Export Model.Bitwise Base.Vec.

(** bit_and(on, mask) | bit_andnot(off, mask) *)
Definition sel_and_or (A : arch) (w : ew) (s : rsz) (on off m : Z) : res Z :=
  let* x := i_bit_and A w s on m in
  let* y := i_bit_andnot A w s off m in
  i_bit_or A w s x y.

(** blend.h, all operands vectors: u8 31-70, u16 144-162, u32 236-255, u64 449-472 *)
Definition i_blend (A : arch) (w : ew) (s : rsz) (on off m : Z) : res Z :=
  let u8 :=
    if use_null A then null_bit_select (ut W8) 128 on off m
    else if use_avx2 A then Ok (mm_blendv_epi8 128 off on m)
    else if use_xop A then Ok (mm_cmov 128 on off m)
    else if use_sse2 A then sel_and_or A W8 R128 on off m
    else if use_neon A then Ok (vbslq m on off)
    else if use_altivec A then Ok (vec_sel off on m)
    else if use_msa A then Ok (msa_bsel m off on) else UB in
  match s with
  | R128 => match w with
            | W64 => if use_null A || (use_altivec A && negb (use_vsx207 A))
                     then null_bit_select (ut W64) 128 on off m else u8
            | _ => u8
            end
  | R256 => if use_avx2 A then Ok (mm_blendv_epi8 256 off on m) else NotImpl
  | R512 => if nat512 A w then Ok (mm_ternarylogic 512 on off m 0xe4) else NotImpl
  end.
(** bit_select.h, all operands vectors: u8 31-71, u16 147-169, u32 241-266, u64 467-498.
    (The 256-bit u16 version goes through u8; with or without AVX512VL the result is that of
    the same instruction sequence.) *)
Definition i_bit_select (A : arch) (w : ew) (s : rsz) (on off m : Z) : res Z :=
  let u8 :=
    if use_null A then null_bit_select (ut W8) 128 on off m
    else if use_avx512vl A then Ok (mm_ternarylogic 128 on off m 0xe4)
    else if use_xop A then Ok (mm_cmov 128 on off m)
    else if use_sse2 A then sel_and_or A W8 R128 on off m
    else if use_neon A then Ok (vbslq m on off)
    else if use_altivec A then Ok (vec_sel off on m)
    else if use_msa A then Ok (msa_bsel m off on) else UB in
  match s with
  | R128 => match w with
            | W64 => if use_null A || (use_altivec A && negb (use_vsx207 A))
                     then null_bit_select (ut W64) 128 on off m
                     else if use_avx512vl A then Ok (mm_ternarylogic 128 on off m 0xe4) else u8
            | _ => u8
            end
  | R256 => if use_avx2 A then
              if use_avx512vl A then Ok (mm_ternarylogic 256 on off m 0xe4)
              else sel_and_or A (match w with W16 => W8 | _ => w end) R256 on off m
            else NotImpl
  | R512 => if nat512 A w then Ok (mm_ternarylogic 512 on off m 0xe4) else NotImpl
  end.

(** vector, vector, mask.  blend.h: u8 76-104, u16 168-196, u32 261-290, u64 478-507;
    bit_select.h: u8 77-105, u16 175-201, u32 272-299, u64 504-533.  [vl]: the 128-bit
    overload has an AVX512VL rung (in bit_select.h u16 and u32 do not). *)
Definition sel_m (A : arch) (w : ew) (s : rsz) (vl : bool)
    (sel : Z -> Z -> Z -> res Z) (on off m : Z) : res Z :=
  let via := let* v := unmask A w s m in sel on off v in
  match s with
  | R128 => if use_null A || (match w with W64 => use_altivec A && negb (use_vsx207 A) | _ => false end)
            then null_blend_mask (ut w) 128 on off m
            else if vl && use_avx512vl A then Ok (mm_mask_blend (wb w) 128 m off on)
            else via
  | R256 => if use_avx2 A then
              if use_avx512vl A then Ok (mm_mask_blend (wb w) 256 m off on) else via
            else NotImpl
  | R512 => if nat512 A w then Ok (mm_mask_blend (wb w) 512 m off on) else NotImpl
  end.
Definition i_blend_m A w s := sel_m A w s true (i_blend A w s).
Definition i_bit_select_m A w s :=
  sel_m A w s (match w with W16 | W32 => false | _ => true end) (i_bit_select A w s).

(** mask, mask, mask.  blend.h: u8 110-138, u16 202-230, u32 296-326, u64 513-543;
    bit_select.h: u8 111-141, u16 207-235, u32 305-335, u64 539-569.  The C operators act on
    the promoted mask value; only the bits of the mask type are kept. *)
Definition sel_mm (A : arch) (w : ew) (s : rsz)
    (sel : Z -> Z -> Z -> res Z) (on off m : Z) : res Z :=
  let kop := Ok (k_or (k_and on m) (k_andnot (kbits_of w s) m off)) in
  let via := let* x := unmask A w s on in let* y := unmask A w s off in
             let* v := unmask A w s m in let* r := sel x y v in i_to_mask A w s r in
  match s with
  | R128 => if use_null A || (match w with W64 => use_altivec A && negb (use_vsx207 A) | _ => false end)
            then null_blend_mask_mm (128 / wb w) on off m
            else if use_avx512vl A then kop else via
  | R256 => if use_avx2 A then if use_avx512vl A then kop else via else NotImpl
  | R512 => if nat512 A w then
              match w with
              | W8 | W16 => kop
              | _ => Ok (mm512_kor (mm512_kand on m) (mm512_kandn m off))
              end
            else NotImpl
  end.
Definition i_blend_mm A w s := sel_mm A w s (i_blend A w s).
Definition i_bit_select_mm A w s := sel_mm A w s (i_bit_select A w s).

(** core/blend.h:58-70, core/bit_select.h:38-48: any length, register by register. *)
Definition blend A w s := vec_impl3 (i_blend A w s).
Definition blend_m A w s := vec_impl3 (i_blend_m A w s).
Definition blend_mm A w s := vec_impl3 (i_blend_mm A w s).
Definition bit_select A w s := vec_impl3 (i_bit_select A w s).
Definition bit_select_m A w s := vec_impl3 (i_bit_select_m A w s).
Definition bit_select_mm A w s := vec_impl3 (i_bit_select_mm A w s).
