(** extract, insert, for_each: simdpp/detail/insn/{extract,insert}.h, simdpp/detail/{mem_block,
    for_each}.h, simdpp/core/{extract,insert,for_each}.h.  Element values of floating-point
    vectors are their bits.  [fp]: the address of the stack memory of a mem_block. *)
From Verif Require Export Model.LoadStore Model.Shuf2x2 Model.SetSplat.

(** replace one w-bit lane: _mm_insert_epi8/16/32/64, vsetq_lane, __msa_insert, and (w = 128)
    _mm256_inserti128_si256, _mm512_inserti32x4 *)
Definition ins (w R id x a : Z) : Z := pack w R (fun i => if i =? id then x else lane w i a).
(** vec_ste(a, 0, p): the element of a that corresponds to the position of p in its 16-byte
    block goes to p, rounded down to the element size *)
Definition vec_ste (w a p : Z) (m : mem) : res mem :=
  let q := p - p mod (w / 8) in st_el w q (lane w (q mod 16 / (w / 8)) a) m.

Section E.
  Variables (A : arch) (fp : Z).

  (** mem_block.h:31-60: an array on the stack, aligned like the vector type *)
  Definition frame (s : rsz) : mem := fun q => if (fp <=? q) && (q <? fp + rbits s / 8) then Some 0 else None.
  Definition mem_block (e : et) (s : rsz) (a : Z) : res mem := i_store A e s fp a (frame s).
  Definition mb_get (w id : Z) (m : mem) : res Z := ld_el w (fp + id * (w / 8)) m.

  (** the bits of element id: extract.h:29-52, 104-120, 172-191, 243-288, 347-369, 391-407 *)
  Definition extract128 (e : et) (id a : Z) : res Z :=
    let w := eb e in
    let direct := Ok (lane w id a) in
    let block := let* m := mem_block e R128 a in mb_get w id m in
    let block_ste := let* m := mem_block e R128 a in let* m := vec_ste w a (fp + id * (w / 8)) m in mb_get w id m in
    let x32 id a := (* i_extract<id>(uint32<4>) where use_sse2 *)
      if use_sse41 A then Ok (lane 32 id a)
      else let* t := i_move_l_wrapper A I32 R128 id a in Ok (lane 32 0 t) in
    match e with
    | I8 =>
        if use_null A then direct else if use_sse41 A then direct
        else if use_sse2 A then
          let shift := if id mod 2 =? 1 then 8 else 0 in Ok (wrap 8 (Z.shiftr (lane 16 (id / 2) a) shift))
        else if use_neon A then direct else if use_altivec A then block_ste else if use_msa A then direct else UB
    | I16 =>
        if use_null A then direct else if use_sse2 A then direct else if use_neon A then direct
        else if use_altivec A then block_ste else if use_msa A then direct else UB
    | I32 =>
        if use_null A then direct else if use_sse2 A then x32 id a else if use_neon A then direct
        else if use_altivec A then block_ste else if use_msa A then direct else UB
    | I64 =>
        if use_null A then direct
        else if use_sse41 A then
          if use_64 A then direct
          else let* lo := x32 (id * 2) a in let* hi := x32 (id * 2 + 1) a in Ok (Z.lor lo (Z.shiftl hi 32))
        else if use_sse2 A then
          if use_64 A then
            if id =? 0 then Ok (lane 64 0 a) else let* t := i_move_l_wrapper A I64 R128 id a in Ok (lane 64 0 t)
          else
            let* t := i_move_l_wrapper A I32 R128 (id * 2) a in
            let* lo := x32 0 t in
            let* t := i_move_l_wrapper A I32 R128 1 t in
            let* hi := x32 0 t in Ok (Z.lor lo (Z.shiftl hi 32))
        else if use_neon A then direct else if use_altivec A then block
        else if use_msa A then
          if use_64 A then direct else Ok (Z.lor (lane 32 (id * 2) a) (Z.shiftl (lane 32 (id * 2 + 1) a) 32))
        else UB
    | F32 =>
        if use_null A || use_neon_no_flt_sp A then direct
        else if use_sse2 A then
          Ok (lane 32 0 (if id =? 0 then a
                         else if id =? 1 then
                           if use_sse3 A then lsh 32 128 2 (fun _ => fromA 1) [a]   (* _mm_movehdup_ps *)
                           else mm_shuffle_ps 128 (MM_SHUFFLE id id id id) a a
                         else if id =? 2 then mm_unpackhi 32 128 a a
                         else mm_shuffle_ps 128 (MM_SHUFFLE id id id id) a a))
        else if use_neon A then direct
        else if use_altivec A || use_msa A then block else UB
    | F64 =>
        if use_null A then direct
        else if use_sse2 A then
          Ok (lane 64 0 (if id =? 0 then a else mm_unpackhi 64 128 a a))
        else if use_neon32 A || use_altivec A || use_msa A then block
        else if use_neon64 A then direct else UB
    end.
  (** 256- and 512-bit registers: extract.h:54-70, 84-100, 122-138, 152-168, 193-209, 223-239,
      290-306, 327-343, 371-387, 409-433 *)
  Definition extract_bits (e : et) (s : rsz) (id a : Z) : res Z :=
    let n := 128 / eb e in
    match s with
    | R128 => extract128 e id a
    | _ => if_wide A e s
        match e with
        | I8 | I16 | I32 => Ok (lane (eb e) (id mod n) (mm_extract128 (id / n) a))
        | F64 => if use_avx2 A && (id =? 3) && (rbits s =? 256)
                 then Ok (lane 64 0 (mm_permute4x64 256 (MM_SHUFFLE id id id id) a))
                 else extract128 e (id mod n) (mm_extract128 (id / n) a)
        | _ => extract128 e (id mod n) (mm_extract128 (id / n) a)
        end
    end.
  (** signed vectors: extract.h:74-82, 142-150, 213-221, 310-325.  The result is the value of the
      returned intN_t; converting the unsigned result is sgn. *)
  Definition i_extract (sg : bool) (e : et) (s : rsz) (id a : Z) : res Z :=
    if sg then
      match e, s with
      | I64, R128 =>
          if use_msa A then
            if use_64 A then Ok (sgn 64 (lane 64 id a))
            else let lo := sgn 32 (lane 32 (id * 2) a) in let hi := sgn 32 (lane 32 (id * 2 + 1) a) in
                 if hi <? 0 then UB (* hi << 32 *) else Ok (Z.lor lo (Z.shiftl hi 32))
          else let* x := extract_bits e s id a in Ok (sgn 64 x)
      | _, R128 => if use_msa A then Ok (sgn (eb e) (lane (eb e) id a))
                   else let* x := extract_bits e s id a in Ok (sgn (eb e) x)
      | _, _ => let* x := extract_bits e s id a in Ok (sgn (eb e) x)
      end
    else extract_bits e s id a.
  (** extract.h:437-442: a vector of several registers *)
  Definition extract (sg : bool) (e : et) (s : rsz) (id : Z) (v : vec) : res Z :=
    let n := rbits s / eb e in
    match nth_error v (Z.to_nat (id / n)) with Some a => i_extract sg e s (id mod n) a | None => UB end.

  (** insert.h:29-57, 83-102, 128-154, 180-234, 260-268, 294-307 *)
  Definition insert128 (e : et) (id a x : Z) : res Z :=
    let w := eb e in
    let direct := Ok (ins w 128 id x a) in
    let block := let* m := mem_block e R128 a in
                 let* m := st_el w (fp + id * (w / 8)) x m in i_load A e R128 fp m in
    let ins16 id x a := Ok (ins 16 128 id x a) in
    let ins32 id x a := if use_null A then Ok (ins 32 128 id x a)
      else if use_sse41 A then Ok (ins 32 128 id x a)
      else if use_sse2 A then
        let lo := Z.land x 0xffff in let hi := wrap 16 (Z.shiftr x 16) in
        let* a1 := ins16 (id * 2) lo a in ins16 (id * 2 + 1) hi a1
      else if use_neon A then Ok (ins 32 128 id x a)
      else if use_altivec A then
        let* m := mem_block I32 R128 a in let* m := st_el 32 (fp + id * 4) x m in i_load A I32 R128 fp m
      else if use_msa A then Ok (ins 32 128 id x a) else UB in
    let ins64 id x a := if use_null A then Ok (ins 64 128 id x a)
      else if use_sse41 A then
        if use_64 A then Ok (ins 64 128 id x a)
        else let* a0 := ins32 (id * 2) (wrap 32 x) a in ins32 (id * 2 + 1) (wrap 32 (Z.shiftr x 32)) a0
      else if use_sse2 A then
        let* vx := if use_64 A then Ok (mm_cvtsi64 x)
                   else i_zip A I32 R128 false (mm_cvtsi32 (wrap 32 x)) (mm_cvtsi32 (wrap 32 (Z.shiftr x 32))) in
        if id =? 0 then i_shuffle1 A I64 R128 0 1 vx a else i_shuffle1 A I64 R128 0 0 a vx
      else if use_neon A then Ok (ins 64 128 id x a)
      else if use_altivec A then
        let* m := mem_block I64 R128 a in let* m := st_el 64 (fp + id * 8) x m in i_load A I64 R128 fp m
      else if use_msa A then
        if use_64 A then Ok (ins 64 128 id x a)
        else Ok (ins 32 128 (id * 2 + 1) (wrap 32 (Z.shiftr x 32)) (ins 32 128 (id * 2) (wrap 32 x) a))
      else UB in
    match e with
    | I8 =>
        if use_null A then direct else if use_sse41 A then direct
        else if use_sse2 A then
          let r := lane 16 (id / 2) a in
          let r := if id mod 2 =? 1 then Z.lor (Z.land r 0x00ff) (wrap 16 (Z.shiftl x 8))
                   else Z.lor (Z.land r 0xff00) x in
          ins16 (id / 2) r a
        else if use_neon A then direct else if use_altivec A then block else if use_msa A then direct else UB
    | I16 =>
        if use_null A then direct else if use_sse2 A then direct else if use_neon A then direct
        else if use_altivec A then block else if use_msa A then direct else UB
    | I32 => ins32 id x a
    | I64 => ins64 id x a
    | F32 => if use_neon A && use_neon_flt_sp A then direct else ins32 id x a
    | F64 =>
        if use_sse2 A then
          let v := mm_set1 64 128 x in
          if id =? 0 then Ok (mm_shuffle_pd 128 2 v a) else Ok (mm_shuffle_pd 128 2 a v)
        else ins64 id x a
    end.
  (** insert.h:59-79, 104-124, 156-176, 236-256, 270-290, 309-339 *)
  Definition i_insert (e : et) (s : rsz) (id a x : Z) : res Z :=
    let n := 128 / eb e in
    let via (f : Z -> res Z) := let* t := f (mm_extract128 (id / n) a) in Ok (ins 128 (rbits s) (id / n) t a) in
    match s with
    | R128 => insert128 e id a x
    | _ => if_wide A e s
        match e with
        | I8 | I16 | I32 => via (fun t => Ok (ins (eb e) 128 (id mod n) x t))
        | F64 => if use_avx2 A && (rbits s =? 256)
                 then let* v := i_set_splat A F64 R256 0 x in Ok (mm_blend 64 256 (2 ^ id) a v)
                 else via (fun t => insert128 e (id mod n) t x)
        | _ => via (fun t => insert128 e (id mod n) t x)
        end
    end.
  (** insert.h:343-351; core/insert.h converts a signed argument to unsigned *)
  Definition insert (e : et) (s : rsz) (id : Z) (v : vec) (x : Z) : res vec :=
    let n := rbits s / eb e in
    let k := Z.to_nat (id / n) in
    match nth_error v k with
    | Some a => let* r := i_insert e s (id mod n) a (wrap (eb e) x) in Ok (firstn k v ++ r :: skipn (S k) v)
    | None => UB
    end.

  (** for_each.h:24-85.  The result: the arguments of the calls of the function, in order. *)
  Fixpoint seqM (f : Z -> res Z) (i : Z) (k : nat) : res (list Z) :=
    match k with O => Ok [] | S k => let* x := f i in let* l := seqM f (i + 1) k in Ok (x :: l) end.
  Definition foreach_impl (sg : bool) (e : et) (s : rsz) (a : Z) : res (list Z) :=
    let n := rbits s / eb e in
    let mem_at m i := let* x := mb_get (eb e) i m in Ok (if sg then sgn (eb e) x else x) in
    if use_sse2 A || use_neon A || use_msa A then
      if (n =? 2) || (n =? 4) then seqM (fun i => i_extract sg e s i a) 0 (Z.to_nat n)
      else
        let* x := seqM (fun i => i_extract sg e s i a) 0 2 in
        let* m := mem_block e s a in
        let* y := seqM (mem_at m) 2 (Z.to_nat (n - 2)) in Ok (x ++ y)
    else
      let* m := mem_block e s a in seqM (mem_at m) 0 (Z.to_nat n).
  Fixpoint for_each (sg : bool) (e : et) (s : rsz) (v : vec) : res (list Z) :=
    match v with
    | [] => Ok []
    | a :: v => let* x := foreach_impl sg e s a in let* y := for_each sg e s v in Ok (x ++ y)
    end.
End E.
