(** load, load_u, store, store_u, store_first, store_last, store_masked, stream:
    simdpp/detail/insn/{load,load_u,store,store_u,store_first,store_last,store_masked,stream}.h,
    simdpp/detail/null/memory.h, simdpp/core/ headers of the same names.
    Not modelled: SIMDPP_USE_AMD rungs (that macro is never defined), the Intel-compiler
    variants of load_u (load_u.h:194-275), big-endian POWER. *)
From Verif Require Export Base.Memory Model.Blend Model.Floats Model.Permute.

(** detail/align.h assume_aligned: the compiler may assume it *)
Definition assume_aligned {X} (n p : Z) (r : res X) : res X := require (aligned n p) r.

(** detail/null/memory.h:24-32: a.el(i) = *pt++ *)
Definition null_load (w p : Z) (m : mem) : res Z :=
  mkM w (nl w 128) (fun i => ld_el w (p + i * (w / 8)) m).
(** k elements of a from element i on, stored at their places: memory.h:68-76 (store: i = 0,
    k = length), 90-98 (store_first: i = 0, k = min(length, n)), 100-110 (store_last:
    i = length - n, k = n) *)
Fixpoint null_st (w p a i : Z) (k : nat) (m : mem) : res mem :=
  match k with
  | O => Ok m
  | S k => let* m := st_el w (p + i * (w / 8)) (lane w i a) m in null_st w p a (i + 1) k m
  end.
Definition null_store (w p a : Z) (m : mem) : res mem := null_st w p a 0 (nl w 128) m.
Definition null_store_first (w p a n : Z) (m : mem) : res mem :=
  null_st w p a 0 (Z.to_nat (Z.min (128 / w) n)) m.
Definition null_store_last (w p a n : Z) (m : mem) : res mem :=
  null_st w p a (128 / w - n) (Z.to_nat n) m.
(** memory.h:78-88: if (mask.el(i)) *pt = a.el(i) *)
Fixpoint null_st_masked (w p a mk i : Z) (k : nat) (m : mem) : res mem :=
  match k with
  | O => Ok m
  | S k => let* m := if lane 8 i mk =? 0 then Ok m else st_el w (p + i * (w / 8)) (lane w i a) m in
           null_st_masked w p a mk (i + 1) k m
  end.
Definition null_store_masked (w p a mk : Z) (m : mem) : res mem := null_st_masked w p a mk 0 (nl w 128) m.

(** 256- and 512-bit versions exist exactly for the register sizes of the element type *)
Definition if_wide {X} (A : arch) (e : et) (s : rsz) (r : res X) : res X :=
  if avail_et A e s then r else NotImpl.
Definition is_dbl (e : et) : bool := match e with F64 => true | _ => false end.

(** load.h: u8 28-41, u16/u32 45-47, u64 50-57, f32 61-76, f64 80-95; 256: 100-130; 512: 134-164 *)
Definition i_load8 (A : arch) (p : Z) (m : mem) : res Z :=
  assume_aligned 16 p
    (if use_null A then null_load 8 p m
     else if use_sse2 A then mm_load 128 p m
     else if use_neon A then vld1q_mem 64 p m
     else if use_altivec A then vec_ld 0 p m
     else if use_msa A then msa_ld p m else UB).
Definition i_load (A : arch) (e : et) (s : rsz) (p : Z) (m : mem) : res Z :=
  match s with
  | R128 =>
    match e with
    | I8 | I16 | I32 => i_load8 A p m
    | I64 => assume_aligned 16 p (if scalar64 A then null_load 64 p m else i_load8 A p m)
    | F32 | F64 => assume_aligned 16 p
        (fl_ladder A (is_dbl e) (null_load (eb e) p m) (mm_load 128 p m) (vld1q_mem (eb e) p m)
           (vec_ld 0 p m) (msa_ld p m))
    end
  | _ => if_wide A e s (assume_aligned (rbits s / 8) p (mm_load (rbits s) p m))
  end.

(** store.h: u8 25-38, u16 59-62, u32 83-86, u64 111-116, f32 139-154, f64 179-194, 256/512
    versions beside them *)
Definition i_store8 (A : arch) (p a : Z) (m : mem) : res mem :=
  assume_aligned 16 p
    (if use_null A then null_store 8 p a m
     else if use_sse2 A then mm_store 128 p a m
     else if use_neon A then vst1q_mem 64 p a m
     else if use_altivec A then vec_st a 0 p m
     else if use_msa A then msa_st a p m else UB).
Definition i_store (A : arch) (e : et) (s : rsz) (p a : Z) (m : mem) : res mem :=
  match s with
  | R128 =>
    match e with
    | I8 | I16 | I32 => i_store8 A p a m
    | I64 => assume_aligned 16 p (if scalar64 A then null_store 64 p a m else i_store8 A p a m)
    | F32 | F64 => assume_aligned 16 p
        (fl_ladder A (is_dbl e) (null_store (eb e) p a m) (mm_store 128 p a m) (vst1q_mem (eb e) p a m)
           (vec_st a 0 p m) (msa_st a p m))
    end
  | _ => if_wide A e s (assume_aligned (rbits s / 8) p (mm_store (rbits s) p a m))
  end.

(** load_u.h: u8 34-57, u16 61-73, u32 77-91, u64 95-114, f32 118-136, f64 140-156; 256:
    159-191; 512: 277-308 *)
Definition i_load_u8 (A : arch) (p : Z) (m : mem) : res Z :=
  if use_null A then null_load 8 p m
  else if use_sse2 A then mm_loadu 128 p m
  else if use_neon A then vld1q_mem 8 p m
  else if use_vsx206 A then vec_vsx_ld p m
  else if use_altivec A then
    let* l1 := vec_ld 0 p m in
    let* l2 := vec_ld 16 p m in
    Ok (vec_perm l1 l2 (vec_lvsl p))
  else if use_msa A then msa_ld p m else UB.
Definition i_load_u (A : arch) (e : et) (s : rsz) (p : Z) (m : mem) : res Z :=
  match s with
  | R128 =>
    let int w :=
      if use_null A then null_load w p m
      else if use_sse2 A || use_altivec A then i_load_u8 A p m
      else if use_neon A then vld1q_mem w p m
      else if use_msa A then msa_ld p m else UB in
    match e with
    | I8 => i_load_u8 A p m
    | I16 => int 16
    | I32 => if use_null A then null_load 32 p m
             else if use_vsx206 A then vec_vsx_ld p m else int 32
    | I64 => if use_null A then null_load 64 p m
             else if use_sse2 A then i_load_u8 A p m
             else if use_vsx207 A then i_load_u8 A p m
             else if use_altivec A then null_load 64 p m else int 64
    | F32 => if use_null A || use_neon_no_flt_sp A then null_load 32 p m
             else if use_sse2 A then mm_loadu 128 p m
             else if use_neon A then vld1q_mem 32 p m
             else if use_vsx206 A then vec_vsx_ld p m
             else if use_altivec A then int 32
             else if use_msa A then msa_ld p m else UB
    | F64 => if use_sse2 A then mm_loadu 128 p m
             else if use_neon64 A then vld1q_mem 64 p m
             else if use_vsx206 A then vec_vsx_ld p m
             else if use_msa A then msa_ld p m
             else if use_null A || use_altivec A || use_neon A then null_load 64 p m else NotImpl
    end
  | _ => if_wide A e s (mm_loadu (rbits s) p m)
  end.

(** store_u.h: u8 28-62, u16 66-74, u32 78-88, u64 92-103, f32 107-124, f64 128-142; 256:
    146-184; 512: 186-222 *)
Definition i_store_u8 (A : arch) (p a : Z) (m : mem) : res mem :=
  if use_null A then null_store 8 p a m
  else if use_sse2 A then mm_storeu 128 p a m
  else if use_neon A then vst1q_mem 8 p a m
  else if use_vsx206 A then vec_vsx_st a p m
  else if use_altivec A then
    let* msq := vec_ld 0 p m in
    let* lsq := vec_ld 15 p m in
    let edges := vec_perm lsq msq (vec_lvsl p) in
    let align := vec_lvsr p in
    let msq := vec_perm edges a align in
    let lsq := vec_perm a edges align in
    let* m := vec_st lsq 15 p m in
    vec_st msq 0 p m
  else if use_msa A then msa_st a p m else UB.
Definition i_store_u (A : arch) (e : et) (s : rsz) (p a : Z) (m : mem) : res mem :=
  match s with
  | R128 =>
    match e with
    | I8 => i_store_u8 A p a m
    | I16 => if use_neon A then vst1q_mem 16 p a m
             else if use_msa A then msa_st a p m else i_store_u8 A p a m
    | I32 => if use_neon A then vst1q_mem 32 p a m
             else if use_vsx206 A then vec_vsx_st a p m
             else if use_msa A then msa_st a p m else i_store_u8 A p a m
    | I64 => if use_neon A then vst1q_mem 64 p a m
             else if use_vsx207 A then vec_vsx_st a p m
             else if use_msa A then msa_st a p m else i_store_u8 A p a m
    | F32 => if use_null A || use_neon_no_flt_sp A then null_store 32 p a m
             else if use_sse2 A then mm_storeu 128 p a m
             else if use_neon A then vst1q_mem 32 p a m
             else if use_vsx206 A then vec_vsx_st a p m
             else if use_altivec A then i_store_u8 A p a m
             else if use_msa A then msa_st a p m else UB
    | F64 => if use_sse2 A then mm_storeu 128 p a m
             else if use_neon64 A then vst1q_mem 64 p a m
             else if use_vsx206 A then vec_vsx_st a p m
             else if use_msa A then msa_st a p m
             else if use_null A || use_neon A || use_altivec A then null_store 64 p a m else UB
    end
  | _ => if_wide A e s (mm_storeu (rbits s) p a m)
  end.

(** stream.h: u8 26-37, u16 60-63, u32 84-87, u64 109-117, f32 139-152, f64 174-185, and the
    256/512-bit versions; a non-temporal store has the memory effect of a store *)
Definition i_stream8 (A : arch) (p a : Z) (m : mem) : res mem :=
  assume_aligned 16 p
    (if use_null A then null_store 8 p a m
     else if use_sse2 A then mm_store 128 p a m
     else if use_neon A || use_msa A then i_store A I8 R128 p a m
     else if use_altivec A then vec_st a 0 p m else UB).
Definition i_stream (A : arch) (e : et) (s : rsz) (p a : Z) (m : mem) : res mem :=
  match s with
  | R128 =>
    match e with
    | I8 | I16 | I32 => i_stream8 A p a m
    | I64 => if use_altivec A && negb (use_vsx207 A)
             then assume_aligned 16 p (null_store 64 p a m) else i_stream8 A p a m
    | F32 => assume_aligned 16 p
        (if use_null A then null_store 32 p a m
         else if use_sse2 A then mm_store 128 p a m
         else if use_neon A || use_msa A then i_store A F32 R128 p a m
         else if use_altivec A then vec_st a 0 p m else UB)
    | F64 => assume_aligned 16 p
        (if use_sse2 A then mm_store 128 p a m
         else if use_neon64 A || use_vsx206 A || use_msa A then i_store A F64 R128 p a m
         else null_store 64 p a m)
    end
  | _ => if_wide A e s (assume_aligned (rbits s / 8) p (mm_store (rbits s) p a m))
  end.

(** load_u(mask_d + off) where mask_d is a static table with [len] elements [x] followed by
    [len] elements [y] (w bits each), len the number of lanes *)
Definition mask_tbl (w : Z) (s : rsz) (x y off : Z) : Z :=
  pack w (rbits s) (fun i => if off + i <? rbits s / w then x else y).
Definition ones_zeros (w : Z) (s : rsz) := mask_tbl w s (-1) 0.
Definition zeros_ones (w : Z) (s : rsz) := mask_tbl w s 0 (-1).

(** b = load(p); b = blend(a, b, mask); store(p, b) on bytes *)
Definition blend_at8 (A : arch) (s : rsz) (p a mask : Z) (m : mem) : res mem :=
  let* b := i_load A I8 s p m in
  let* b := i_blend A W8 s a b mask in
  i_store A I8 s p b m.

(** store_first.h: u8 32-62, 67-79, 84-102 *)
Definition i_store_first8 (A : arch) (s : rsz) (p a n : Z) (m : mem) : res mem :=
  match s with
  | R128 => assume_aligned 16 p
     (if use_null A then null_store_first 8 p a n m
      else if use_altivec A then
        let mask := vec_slo (ones 128) (wrap 8 (Z.shiftl n 3)) in
        let* b := i_load A I8 R128 p m in
        let* b := i_blend A W8 R128 b a mask in
        i_store A I8 R128 p b m
      else if use_sse2 A || use_neon A || use_msa A then
        blend_at8 A R128 p a (ones_zeros 8 R128 (16 - n)) m
      else UB)
  | _ => if_wide A I8 s (blend_at8 A s p a (ones_zeros 8 s (rbits s / 8 - n)) m)
  end.
(** store_first.h: u16 109-132, u32 137-164, u64 169-212, f32 217-267, f64 272-317 *)
Definition i_store_first (A : arch) (e : et) (s : rsz) (p a n : Z) (m : mem) : res mem :=
  let w := eb e in let R := rbits s in
  let maskst := mm_maskstore w R p (ones_zeros w s (R / w - n)) a m in
  let u32 :=
    assume_aligned 16 p
      (if use_null A then null_store_first 32 p a n m
       else if use_sse2 A || use_neon A || use_altivec A || use_msa A
       then i_store_first8 A R128 p a (n * 4) m else UB) in
  match s with
  | R128 =>
    match e with
    | I8 => i_store_first8 A s p a n m
    | I16 => assume_aligned 16 p
      (if use_null A then null_store_first 16 p a n m
       else if use_sse2 A || use_neon A || use_altivec A || use_msa A
       then i_store_first8 A R128 p a (n * 2) m else UB)
    | I32 => u32
    | I64 => assume_aligned 16 p
      (if use_sse2 A then if n =? 1 then mm_store_sd p a m else Ok m
       else if use_neon A then if n =? 1 then vst1q_lane 64 p a 0 m else Ok m
       else if use_vsx207 A then if n =? 1 then st_el 64 p (lane 64 0 a) m else Ok m
       else if use_msa A then i_store_first8 A R128 p a (n * 8) m
       else if use_null A || use_altivec A then null_store_first 64 p a n m else UB)
    | F32 => assume_aligned 16 p
      (if use_null A || use_altivec A || use_neon_no_flt_sp A || use_msa A then u32
       else if use_avx A then maskst
       else if use_sse2 A then
         let* b := i_load A F32 R128 p m in
         let* b := f_blend A false R128 a b (ones_zeros 32 R128 (4 - n)) in
         i_store A F32 R128 p b m
       else if use_neon A then
         if n <? 1 then Ok m else
         let* m := vst1q_lane 32 p a 0 m in
         if n <? 2 then Ok m else
         let* m := vst1q_lane 32 (p + 4) a 1 m in
         if n <? 3 then Ok m else
         vst1q_lane 32 (p + 8) a 2 m
       else UB)
    | F64 => assume_aligned 16 p
      (if use_sse2 A then if n =? 1 then mm_store_sd p a m else Ok m
       else if use_neon64 A then if n =? 1 then st_el 64 p (lane 64 0 a) m else Ok m
       else if use_vsx206 A then if n =? 1 then st_el 64 p (lane 64 0 a) m else Ok m
       else if use_msa A then i_store_first8 A R128 p a (n * 8) m
       else if use_null A || use_neon32 A || use_altivec A then null_store_first 64 p a n m else UB)
    end
  | R256 => if_wide A e s
      match e with
      | I8 => i_store_first8 A s p a n m
      | I16 => i_store_first8 A s p a (n * 2) m
      | _ => maskst
      end
  | R512 => if_wide A e s
      match e with
      | I8 => i_store_first8 A s p a n m
      | I16 => i_store_first8 A s p a (n * 2) m
      | I32 | F32 => mm_mask_store 32 512 p (Z.shiftr 0xffff (16 - n)) a m
      | I64 | F64 => mm_mask_store 64 512 p (Z.shiftr 0xff (8 - n)) a m
      end
  end.

(** store_last.h: u8 35-71, 76-90, 93-112 *)
Definition i_store_last8 (A : arch) (s : rsz) (p a n : Z) (m : mem) : res mem :=
  match s with
  | R128 => assume_aligned 16 p
     (if use_null A then null_store_last 8 p a n m
      else if use_altivec A then
        let mask := vec_sro (ones 128) (wrap 8 (Z.shiftl n 3)) in
        let* b := i_load A I8 R128 p m in
        let* b := i_blend A W8 R128 b a mask in
        i_store A I8 R128 p b m
      else if use_sse2 A || use_neon A then blend_at8 A R128 p a (zeros_ones 8 R128 n) m
      else if use_msa A then blend_at8 A R128 p a (msa_sld (ones 128) 0 n) m
      else UB)
  | _ => if_wide A I8 s (assume_aligned (rbits s / 8) p (blend_at8 A s p a (zeros_ones 8 s n) m))
  end.
(** store_last.h: u16 119-142, u32 147-178, u64 183-227, f32 232-286, f64 291-338 *)
Definition i_store_last (A : arch) (e : et) (s : rsz) (p a n : Z) (m : mem) : res mem :=
  let w := eb e in let R := rbits s in
  let maskst := mm_maskstore w R p (zeros_ones w s n) a m in
  let u32 :=
    assume_aligned 16 p
      (if use_null A then null_store_last 32 p a n m
       else if use_avx2 A then maskst
       else if use_sse2 A || use_neon A || use_altivec A || use_msa A
       then i_store_last8 A R128 p a (n * 4) m else UB) in
  match s with
  | R128 =>
    match e with
    | I8 => i_store_last8 A s p a n m
    | I16 => assume_aligned 16 p
      (if use_null A then null_store_last 16 p a n m
       else if use_sse2 A || use_neon A || use_altivec A || use_msa A
       then i_store_last8 A R128 p a (n * 2) m else UB)
    | I32 => u32
    | I64 => assume_aligned 16 p
      (if use_sse2 A then
         if n =? 1 then let* b := i_move_l A I64 R128 1 a in mm_store_sd (p + 8) b m else Ok m
       else if use_neon A then if n =? 1 then vst1q_lane 64 (p + 8) a 1 m else Ok m
       else if use_vsx207 A then if n =? 1 then st_el 64 (p + 8) (lane 64 1 a) m else Ok m
       else if use_msa A then i_store_last8 A R128 p a (n * 8) m
       else if use_null A || use_altivec A then null_store_last 64 p a n m else UB)
    | F32 => assume_aligned 16 p
      (if use_null A || use_altivec A || use_neon_flt_sp A || use_msa A then u32
       else if use_avx A then maskst
       else if use_sse2 A then
         let* b := i_load A F32 R128 p m in
         let* b := f_blend A false R128 a b (zeros_ones 32 R128 n) in
         i_store A F32 R128 p b m
       else if use_neon A then
         if n <? 1 then Ok m else
         let* m := vst1q_lane 32 (p + 12) a 3 m in
         if n <? 2 then Ok m else
         let* m := vst1q_lane 32 (p + 8) a 2 m in
         if n <? 3 then Ok m else
         vst1q_lane 32 (p + 4) a 1 m
       else UB)
    | F64 => assume_aligned 16 p
      (if use_sse2 A then
         if n =? 1 then let* b := i_zip A F64 R128 true a a in mm_store_sd (p + 8) b m else Ok m
       else if use_neon64 A then if n =? 1 then st_el 64 (p + 8) (lane 64 1 a) m else Ok m
       else if use_vsx206 A then if n =? 1 then st_el 64 (p + 8) (lane 64 1 a) m else Ok m
       else if use_msa A then i_store_last8 A R128 p a (n * 8) m
       else if use_null A || use_neon32 A || use_altivec A then null_store_last 64 p a n m else UB)
    end
  | R256 => if_wide A e s
      match e with
      | I8 => i_store_last8 A s p a n m
      | I16 => i_store_last8 A s p a (n * 2) m
      | _ => maskst
      end
  | R512 => if_wide A e s
      match e with
      | I8 => i_store_last8 A s p a n m
      | I16 => i_store_last8 A s p a (n * 2) m
      | I32 | F32 => mm_mask_store 32 512 p (Z.shiftl 0xffff (16 - n)) a m
      | I64 | F64 => mm_mask_store 64 512 p (Z.shiftl 0xff (8 - n)) a m
      end
  end.

(** store_masked.h: u32 27-63, u64 68-127 ([w] = W32, W64) *)
Definition i_store_masked (A : arch) (w : ew) (s : rsz) (p a mk : Z) (m : mem) : res mem :=
  let R := rbits s in
  let e := match w with W64 => I64 | _ => I32 end in
  let nul := match w with W64 => scalar64 A | _ => use_null A end in
  match s with
  | R128 =>
    if nul then null_store_masked (wb w) p a mk m
    else if use_avx512vl A then mm_mask_store (wb w) R p mk a m
    else if use_avx2 A || use_avx A then mm_maskstore (wb w) R p mk a m
    else let* b := i_load A e s p m in
         let* b := i_blend_m A w s a b mk in
         i_store A e s p b m
  | R256 => if_wide A e s (if use_avx512vl A then mm_mask_store (wb w) R p mk a m
                        else mm_maskstore (wb w) R p mk a m)
  | R512 => if_wide A e s (mm_mask_store (wb w) R p mk a m)
  end.
(** store_masked.h: f32 132-168, f64 173-209 *)
Definition f_store_masked (A : arch) (d : bool) (s : rsz) (p a mk : Z) (m : mem) : res mem :=
  let R := rbits s in
  let e := if d then F64 else F32 in
  let nul := if d then use_null A || use_neon32 A || (use_altivec A && negb (use_vsx206 A)) else use_null A in
  match s with
  | R128 =>
    if nul then null_store_masked (fw d) p a mk m
    else if use_avx512vl A then mm_mask_store (fw d) R p mk a m
    else if use_avx A then mm_maskstore (fw d) R p mk a m
    else let* b := i_load A e s p m in
         let* b := f_blend_m A d s a b mk in
         i_store A e s p b m
  | R256 => if_wide A e s (if use_avx512vl A then mm_mask_store (fw d) R p mk a m
                        else mm_maskstore (fw d) R p mk a m)
  | R512 => if_wide A e s (mm_mask_store (fw d) R p mk a m)
  end.

(** * Vectors of any length *)
(** load.h:167-175, load_u.h:313-320: register i from p + i * veclen *)
Fixpoint v_load (f : Z -> mem -> res Z) (step p : Z) (k : nat) (m : mem) : res vec :=
  match k with
  | O => Ok []
  | S k => let* r := f p m in let* v := v_load f step (p + step) k m in Ok (r :: v)
  end.
(** store.h:217-227, store_u.h:224-232, stream.h:208-218 *)
Fixpoint v_store (f : Z -> Z -> mem -> res mem) (step p : Z) (v : vec) (m : mem) : res mem :=
  match v with
  | [] => Ok m
  | a :: v => let* m := f p a m in v_store f step (p + step) v m
  end.
(** store_masked.h:213-221 *)
Fixpoint v_store2 (f : Z -> Z -> Z -> mem -> res mem) (step p : Z) (v k : vec) (m : mem) : res mem :=
  match v, k with
  | a :: v, c :: k => let* m := f p a c m in v_store2 f step (p + step) v k m
  | _, _ => Ok m
  end.
Definition load A e s p k m := v_load (i_load A e s) (rbits s / 8) p k m.
Definition load_u A e s p k m := v_load (i_load_u A e s) (rbits s / 8) p k m.
Definition store A e s p v m := assume_aligned (rbits s / 8) p (v_store (i_store A e s) (rbits s / 8) p v m).
Definition store_u A e s p v m := v_store (i_store_u A e s) (rbits s / 8) p v m.
Definition stream A e s p v m := assume_aligned (rbits s / 8) p (v_store (i_stream A e s) (rbits s / 8) p v m).
Definition store_masked A w s p v k m := v_store2 (i_store_masked A w s) (rbits s / 8) p v k m.
Definition store_masked_f A d s p v k m := v_store2 (f_store_masked A d s) (rbits s / 8) p v k m.
(** a.vec(i); reading past the last register is undefined *)
Definition vec_at (v : vec) (i : Z) : res Z := match nth_error v (Z.to_nat i) with Some r => Ok r | None => UB end.
(** store_first.h:321-340: n / base_length whole registers (store), then the rest *)
Fixpoint st_range (f : Z -> Z -> mem -> res mem) (step p : Z) (v : vec) (i : Z) (k : nat) (m : mem) : res mem :=
  match k with
  | O => Ok m
  | S k => let* a := vec_at v i in let* m := f p a m in st_range f step (p + step) v (i + 1) k m
  end.
Definition store_first A e s p v n m :=
  let step := rbits s / 8 in let len := rbits s / eb e in
  assume_aligned step p
    (let full := n / len in let mid := n mod len in
     let* m := st_range (i_store A e s) step p v 0 (Z.to_nat full) m in
     if 0 <? mid then let* a := vec_at v full in i_store_first A e s (p + full * step) a mid m else Ok m).
(** store_last.h:342-366 *)
Definition store_last A e s p v n m :=
  let step := rbits s / 8 in let len := rbits s / eb e in let k := Z.of_nat (length v) in
  assume_aligned step p
    (let empty := (k * len - n) / len in let mid := n mod len in
     let q := p + empty * step in
     if 0 <? mid then
       let* a := vec_at v empty in
       let* m := i_store_last A e s q a mid m in
       st_range (i_store A e s) step (q + step) v (empty + 1) (Z.to_nat (k - (empty + 1))) m
     else st_range (i_store A e s) step q v empty (Z.to_nat (k - empty)) m).
