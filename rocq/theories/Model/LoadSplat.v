(** load_splat: simdpp/detail/insn/load_splat.h, detail/altivec/load1.h, core/load_splat.h.
    [junk]: the bits of uninitialised registers. *)
From Verif Require Export Model.LoadStore Model.SetSplat.

Section L.
  Variables (A : arch) (junk p : Z) (m : mem).
  (** altivec/load1.h:35-90: vec_lde puts the element at the position its address has in its
      16-byte block, the other elements are undefined *)
  Definition load1_u (w : Z) : res Z :=
    let* x := ld_el w p m in
    let r := pack w 128 (fun i => if i =? p mod 16 / (w / 8) then x else lane w i junk) in
    Ok (vec_perm r r (vec_lvsl p)).
  (** [*v0], handed to make_vec or i_set_splat *)
  Definition ls_null (w : Z) : res Z := let* x := ld_el w p m in Ok (null_make_vec w 128 (fun _ => x)).
  Definition ls_set (e : et) (s : rsz) : res Z := let* x := ld_el (eb e) p m in i_set_splat A e s junk x.
  Definition ls_dup (w : Z) : res Z := let* x := ld_el w p m in Ok (vdupq w x).
  (** movss/movsd/movq/broadcast loads: no alignment needed *)
  Definition ls_bcast (w R : Z) : res Z := let* x := rd w p m in Ok (mm_broadcast w R x).
  (** load_splat.h:25-38, 58-71, 91-107, 129-151, 174-192, 214-233 *)
  Definition load_splat128 (e : et) : res Z :=
    let w := eb e in
    let av := let* v := load1_u w in i_splat_n A e R128 0 v in
    match e with
    | I8 | I16 =>
        if use_null A then ls_null w else if use_sse2 A || use_msa A then ls_set e R128
        else if use_neon A then ls_dup w else if use_altivec A then av else UB
    | I32 =>
        if use_null A then ls_null w
        else if use_sse2 A then let* x := ld_el 32 p m in i_permute4 A I32 R128 0 0 0 0 (mm_cvtsi32 x)
        else if use_neon A then ls_dup w else if use_altivec A then av
        else if use_msa A then ls_set e R128 else UB
    | I64 =>
        if use_sse2 A then let* x := rd 64 p m in i_permute2 A I64 R128 0 0 x
        else if use_neon A then ls_dup w
        else if use_vsx207 A then let* v := i_load_u A I64 R128 p m in i_splat_n A I64 R128 0 v
        else if use_null A || use_altivec A then ls_null w
        else if use_msa A then ls_set e R128 else UB
    | F32 =>
        if use_null A || use_neon_no_flt_sp A then ls_null w
        else if use_avx A then ls_bcast 32 128
        else if use_sse2 A then let* x := rd 32 p m in i_permute4 A F32 R128 0 0 0 0 x
        else if use_neon A then ls_dup w else if use_altivec A then av
        else if use_msa A then ls_set e R128 else UB
    | F64 =>
        if use_sse3 A then ls_bcast 64 128
        else if use_sse2 A then let* x := rd 64 p m in i_permute2 A F64 R128 0 0 x
        else if use_neon64 A then ls_dup w
        else if use_vsx206 A then let* v := i_load_u A F64 R128 p m in i_splat_n A F64 R128 0 v
        else if use_msa A then ls_set e R128
        else if use_null A || use_neon A || use_altivec A then ls_null w else UB
    end.
  (** load_splat.h:40-53, 73-86, 109-124, 153-169, 194-209, 235-250 *)
  Definition i_load_splat (e : et) (s : rsz) : res Z :=
    match s with
    | R128 => load_splat128 e
    | _ => if_wide A e s
        match e, s with
        | I8, _ | I16, _ | I32, R256 => ls_set e s
        | _, _ => ls_bcast (eb e) (rbits s)
        end
    end.
  (** load_splat.h:254-262: every register of a longer vector receives the same value *)
  Definition load_splat (e : et) (s : rsz) (n : nat) : res vec := let* t := i_load_splat e s in Ok (repeat t n).
End L.
