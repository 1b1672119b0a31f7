(** reduce_popcnt: detail/insn/i_reduce_popcnt.h, core/i_reduce_popcnt.h. *)
From Verif Require Export Model.ReduceAdd Model.Popcnt Model.Cast.

Section R.
  Variables (A : arch) (fp : Z).
  (** (uint32_t) reduce_add(popcnt(a)) *)
  Definition pop_add (w : ew) (s : rsz) (a : Z) : res Z :=
    let* p := i_popcnt A w s a in let* r := reduce_add A fp false w s [p] in Ok (wrap 32 r).
  (** i_reduce_popcnt.h:26-61 *)
  Definition red_pop128 (a : Z) : res Z :=
    if use_null A then null_redN c_u32 c_u32 (fun r x => let* p := el_popcnt W32 x in c_add r p) 0 [a]
    else if use_popcnt A then
      if use_64 A then
        let* x0 := i_extract A fp false I64 R128 0 a in let r := wrap 32 (0 + mm_popcnt 64 x0) in
        let* x1 := i_extract A fp false I64 R128 1 a in Ok (wrap 32 (r + mm_popcnt 64 x1))
      else
        let* x0 := i_extract A fp false I32 R128 0 a in let r := wrap 32 (0 + mm_popcnt 32 x0) in
        let* x1 := i_extract A fp false I32 R128 1 a in let r := wrap 32 (r + mm_popcnt 32 x1) in
        let* x2 := i_extract A fp false I32 R128 2 a in let r := wrap 32 (r + mm_popcnt 32 x2) in
        let* x3 := i_extract A fp false I32 R128 3 a in Ok (wrap 32 (r + mm_popcnt 32 x3))
    else if use_neon A then reduce_add A fp false W8 R128 [vcntq_u8 a]
    else if use_vsx207 A || use_msa A then pop_add W64 R128 a
    else if use_sse2 A then pop_add W64 R128 a
    else pop_add W32 R128 a.
  (** 63-76 *)
  Definition red_pop256 (a : Z) : res Z :=
    if use_avx2 A then
      if use_popcnt A && use_64 A then
        let '(a0, a1) := i_split1 R256 a in
        let* r0 := red_pop128 a0 in let* r1 := red_pop128 a1 in Ok (wrap 32 (r0 + r1))
      else pop_add W64 R256 a
    else NotImpl.
  (** 78-92 *)
  Definition red_pop512 (a : Z) : res Z :=
    if use_avx512f A then
      if use_popcnt A && use_64 A then
        let '(a0, a1) := i_split1 R512 a in
        let* r0 := red_pop256 a0 in let* r1 := red_pop256 a1 in Ok (wrap 32 (r0 + r1))
      else pop_add W64 R512 a
    else NotImpl.
  Definition red_pop1 (s : rsz) (a : Z) : res Z :=
    match s with R128 => red_pop128 a | R256 => red_pop256 a | R512 => red_pop512 a end.
  (** 94-102: r += i_reduce_popcnt(a.vec(j)) *)
  Fixpoint red_popN (s : rsz) (r : Z) (va : vec) : res Z :=
    match va with [] => Ok r | a :: va => let* x := red_pop1 s a in red_popN s (wrap 32 (r + x)) va end.
  Definition i_reduce_popcnt (s : rsz) (va : vec) : res Z :=
    match va with [a] => red_pop1 s a | _ => red_popN s 0 va end.
  (** core/i_reduce_popcnt.h:28-74: the vector of T bits is cast to uint32<T/32>; the return type is uint32_t *)
  Definition reduce_popcnt (w : ew) (T : Z) (va : vec) : res Z :=
    let* v := match w with W32 => Ok va | _ => bit_cast A (TInt w) (TInt W32) T va end in
    let* r := i_reduce_popcnt (vreg A 32 T) v in Ok (wrap 32 r).
End R.
