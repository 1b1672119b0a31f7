(** Integer minimum, maximum and averages:
    simdpp/detail/insn/{i_min,i_max,i_avg,i_avg_trunc}.h and core/i_{min,max,avg,avg_trunc}.h.
    [sg] selects the overload on signed elements. *)
From Verif Require Export Model.Cmp Model.Blend Model.Arith.

(** i_min.h (signed / unsigned): 8: 30-63 / 74-102, 16: 113-141 / 152-185, 32: 196-228 /
    239-271, 64: 282-319 / 330-367.  i_max.h is the same file with max for min and cmp_gt for
    cmp_lt, one line up; the two differ by the parameters below. *)
Definition minmax_ladder (cmp : Z -> Z -> res Z) (nul : cty -> Z -> Z -> Z -> res Z)
    (x86s x86u : Z -> Z -> Z -> Z -> Z) (neon ppc msa : Z -> Z -> Z -> Z)
    (A : arch) (sg : bool) (w : ew) (s : rsz) (a b : Z) : res Z :=
  let t := sg2 sg (st w) (ut w) in
  let B := wb w in
  let direct R := Ok (sg2 sg x86s x86u B R a b) in
  let rest nt :=
    if use_neon A then Ok (neon B a b)
    else if use_altivec A then Ok (ppc B a b)
    else if use_msa A then Ok (msa B a b) else nt in
  let cb := let* m := cmp a b in i_blend_m A w s a b m in
  (** ca = bit_xor(a, 0x80..), cb likewise, the other signedness, bit_xor *)
  let via_flip f :=
    let* c := konst A w s (2 ^ (B - 1)) in
    let* ca := i_bit_xor A w s a c in
    let* cb := i_bit_xor A w s b c in
    i_bit_xor A w s (f B 128 ca cb) c in
  match s with
  | R128 =>
      match w with
      | W8 => if use_null A then nul t 128 a b
              else if sg then
                if use_sse41 A then direct 128
                else if use_sse2 A then via_flip x86u else rest UB
              else if use_sse2 A then direct 128 else rest UB
      | W16 => if use_null A then nul t 128 a b
               else if sg then
                 if use_sse2 A then direct 128 else rest UB
               else if use_sse41 A then direct 128
               else if use_sse2 A then via_flip x86s else rest UB
      | W32 => if use_null A then nul t 128 a b
               else if use_sse41 A then direct 128
               else if use_sse2 A then cb else rest UB
      | W64 => if use_avx512vl A then direct 128
               else if use_avx2 A || use_neon64 A then cb
               else if use_vsx207 A then Ok (ppc 64 a b)
               else if use_msa A then Ok (msa 64 a b)
               else if use_null A || use_altivec A then nul t 128 a b
               else NotImpl
      end
  | R256 => if use_avx2 A then
              match w with
              | W64 => if use_avx512vl A then direct 256 else cb
              | _ => direct 256
              end
            else NotImpl
  | R512 => if nat512 A w then direct 512 else NotImpl
  end.
Definition i_min (A : arch) (sg : bool) (w : ew) (s : rsz) (a b : Z) : res Z :=
  minmax_ladder (i_cmp_lt A sg w s) null_min mm_min_epi mm_min_epu
    (sg2 sg vminq_s vminq_u) (sg2 sg vec_min_s vec_min_u) (sg2 sg msa_min_s msa_min_u) A sg w s a b.
Definition i_max (A : arch) (sg : bool) (w : ew) (s : rsz) (a b : Z) : res Z :=
  minmax_ladder (i_cmp_gt A sg w s) null_max mm_max_epi mm_max_epu
    (sg2 sg vmaxq_s vmaxq_u) (sg2 sg vec_max_s vec_max_u) (sg2 sg msa_max_s msa_max_u) A sg w s a b.

(** The type the scalar loops of i_avg.h and i_avg_trunc.h convert the first operand to: twice
    the element width. *)
Definition wide (sg : bool) (w : ew) : cty := (sg, 2 * wb w).
(** r.el(i) = (wide(a.el(i)) + b.el(i) + 1) >> 1 *)
Definition null_avg (sg : bool) (w : ew) (R a b : Z) : res Z :=
  let t := sg2 sg (st w) (ut w) in
  nloop t R (fun i => let* x := c_add (ccast (wide sg w) (el t a i)) (el t b i) in
                      let* y := c_add x (c_int, 1) in c_shr y (c_int, 1)).
Definition null_avg_trunc (sg : bool) (w : ew) (R a b : Z) : res Z :=
  let t := sg2 sg (st w) (ut w) in
  nloop t R (fun i => let* x := c_add (ccast (wide sg w) (el t a i)) (el t b i) in c_shr x (c_int, 1)).

(** i_avg_trunc.h v_emul_avg_trunc 251-257; shift_r<1> on unsigned elements *)
Definition emul_avg_trunc (A : arch) (w : ew) (s : rsz) (a b : Z) : res Z :=
  let* x1 := i_bit_and A w s a b in
  let* x2 := i_bit_xor A w s a b in
  let* h := i_shift_r_t A false w s 1 x2 in
  i_add A w s x1 h.
(** i_avg.h v_emul_avg_u32 298-308 *)
Definition emul_avg (A : arch) (w : ew) (s : rsz) (a b : Z) : res Z :=
  let* x1 := i_bit_and A w s a b in
  let* x2 := i_bit_xor A w s a b in
  let* one := konst A w s 1 in
  let* round := i_bit_and A w s x2 one in
  let* h := i_shift_r_t A false w s 1 x2 in
  let* x1 := i_add A w s x1 h in
  i_add A w s x1 round.
(** bias both operands by the sign bit, apply the unsigned operation, remove the bias:
    i_avg.h 80-86 and its copies, v_emul_avg_i32 311-321, i_avg_trunc.h 260-297 *)
Definition biased (A : arch) (w : ew) (s : rsz) (op : Z -> Z -> res Z) (a b : Z) : res Z :=
  let* bias := konst A w s (2 ^ (wb w - 1)) in
  let* a2 := i_bit_xor A w s a bias in
  let* b2 := i_bit_xor A w s b bias in
  let* r := op a2 b2 in
  i_bit_xor A w s r bias.

(** i_avg.h: u8 33-65, i8 70-120, u16 125-157, i16 162-209, u32 214-247, i32 252-286 *)
Definition i_avg_u (A : arch) (w : ew) (s : rsz) (a b : Z) : res Z :=
  let x86 R := match w with W32 => emul_avg A w s a b | _ => Ok (mm_avg_epu (wb w) R a b) end in
  match s with
  | R128 =>
      if use_null A then null_avg false w 128 a b
      else if use_sse2 A then x86 128
      else if use_neon A then Ok (vrhaddq_u (wb w) a b)
      else if use_altivec A then Ok (vec_avg_u (wb w) a b)
      else if use_msa A then Ok (msa_aver_u (wb w) a b) else UB
  | R256 => if use_avx2 A then x86 256 else NotImpl
  | R512 => if nat512 A w then x86 512 else NotImpl
  end.
Definition i_avg (A : arch) (sg : bool) (w : ew) (s : rsz) (a b : Z) : res Z :=
  if sg then
    match s with
    | R128 =>
        if use_null A then null_avg true w 128 a b
        else if use_sse2 A then biased A w s (i_avg_u A w s) a b
        else if use_neon A then Ok (vrhaddq_s (wb w) a b)
        else if use_altivec A then Ok (vec_avg_s (wb w) a b)
        else if use_msa A then Ok (msa_aver_s (wb w) a b) else UB
    | R256 => if use_avx2 A then biased A w s (i_avg_u A w s) a b else NotImpl
    | R512 => if nat512 A w then biased A w s (i_avg_u A w s) a b else NotImpl
    end
  else i_avg_u A w s a b.
(** i_avg_trunc.h: u8 34-64, i8 69-99, u16 104-134, i16 139-169, u32 174-205, i32 210-241 *)
Definition i_avg_trunc (A : arch) (sg : bool) (w : ew) (s : rsz) (a b : Z) : res Z :=
  let emul := if sg then biased A w s (emul_avg_trunc A w s) a b else emul_avg_trunc A w s a b in
  match s with
  | R128 =>
      if use_null A then null_avg_trunc sg w 128 a b
      else if use_sse2 A || use_altivec A then emul
      else if use_neon A then Ok (sg2 sg vhaddq_s vhaddq_u (wb w) a b)
      else if use_msa A then Ok (sg2 sg msa_ave_s msa_ave_u (wb w) a b) else UB
  | R256 => if use_avx2 A then emul else NotImpl
  | R512 => if nat512 A w then emul else NotImpl
  end.

(** core/i_min.h, i_max.h, i_avg.h, i_avg_trunc.h: any length.  min and max exist for all
    widths, the averages for 8-, 16- and 32-bit elements. *)
Definition min A sg w s := vec_impl2 (i_min A sg w s).
Definition max A sg w s := vec_impl2 (i_max A sg w s).
Definition avg A sg w s := vec_impl2 (i_avg A sg w s).
Definition avg_trunc A sg w s := vec_impl2 (i_avg_trunc A sg w s).
