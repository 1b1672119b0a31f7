(** load_packed2/3/4 and store_packed2/3/4: simdpp/detail/insn/{load_packed2,load_packed3,
    load_packed4,store_packed2,store_packed3,store_packed4,mem_pack,mem_unpack,shuffle128}.h,
    simdpp/detail/null/memory.h and the core headers of the same names.  The functions take the
    vectors by reference; here they take and return lists of 2, 3 or 4 registers. *)
From Verif Require Export Model.LoadStore Model.Transpose Model.Shuf2x2 Model.Shift.

(** shuffle128.h: shuffle2_128 (48-93, _mm512_shuffle_i32x4 and the like), shuffle1_128 on one
    256-bit register (107-160, permute2x128), permute4_128 (shuffle2_128 of a, a) *)
Definition shuffle2_128 (s0 s1 s2 s3 a b : Z) : Z :=
  lsh 128 512 4 (fun k => if k =? 0 then fromA s0 else if k =? 1 then fromA s1
                          else if k =? 2 then fromB s2 else fromB s3) [a; b].
Definition shuf1_128 (s0 s1 a b : Z) : Z :=
  lsh 128 256 2 (fun k => if k =? 0 then fromA s0 else fromB s1) [a; b].
Definition permute4_128 (s0 s1 s2 s3 a : Z) : Z := shuffle2_128 s0 s1 s2 s3 a a.

(** one register or another of a short list *)
Definition g (l : list Z) (i : nat) : Z := nth i l 0.

(** blend(a, b, mask) where the mask is an unsigned vector *)
Definition blend_e (A : arch) (e : et) (s : rsz) (on off m : Z) : res Z :=
  match e with
  | I8 => i_blend A W8 s on off m
  | I16 => i_blend A W16 s on off m
  | I32 => i_blend A W32 s on off m
  | I64 => i_blend A W64 s on off m
  | F32 => f_blend A false s on off m
  | F64 => f_blend A true s on off m
  end.

Section P.
  Variables (A : arch) (s : rsz).
  Notation zlo e := (i_zip A e s false).
  Notation zhi e := (i_zip A e s true).
  Notation sh2 e := (i_shuffle2 A e s).
  Notation sh1 e := (i_shuffle1 A e s).

  (** mask2 = make_uint(all ones); mask2 = move_l<sh>(mask2) *)
  Definition ones_l (e : et) (w : ew) (sh : Z) : res Z :=
    let* m := konst A w s (ones (eb e)) in i_move_l A e s sh m.

  (** mem_unpack.h:43-74 *)
  Definition mem_unpack2 (e : et) (a b : Z) : res (list Z) :=
    let '(c1, c2) := match s with
      | R128 => (a, b)
      | R256 => (shuf1_128 0 0 a b, shuf1_128 1 1 a b)
      | R512 => (shuffle2_128 0 2 0 2 a b, shuffle2_128 1 3 1 3 a b)
      end in
    let* r0 := i_unzip_lo A e s c1 c2 in
    let* r1 := i_unzip_hi A e s c1 c2 in Ok [r0; r1].

  (** mem_unpack.h:82-155, AltiVec and MSA *)
  Definition unpack3_8_perm (a b c : Z) : res (list Z) :=
    let m1 := [1; 4; 7; 10; 13; 16; 19; 22; 25; 28; 31; 2; 5; 8; 11; 14] in
    let* a1 := shuffle_mask A s 1 m1 c a in
    let* b1 := shuffle_mask A s 1 m1 a b in
    let* c1 := shuffle_mask A s 1 m1 b c in
    let* m2 := ones_l I8 W8 5 in
    let* a2 := blend_e A I8 s a1 c1 m2 in
    let* b2 := blend_e A I8 s b1 a1 m2 in
    let* c2 := blend_e A I8 s c1 b1 m2 in
    let* ra := i_align A I8 s 5 a2 a2 in
    let* rc := i_align A I8 s 11 c2 c2 in Ok [ra; b2; rc].
  (** the other instruction sets *)
  Definition unpack3_8_zip (a b c : Z) : res (list Z) :=
    let* t1 := i_align A I8 s 12 a b in
    let* t2 := i_align A I8 s 8 b c in
    let* t3 := i_move_l A I8 s 4 c in
    let* b0 := zlo I8 a t1 in let* b1 := zlo I8 t2 t3 in
    let* b2 := zhi I8 a t1 in let* b3 := zhi I8 t2 t3 in
    let* u0 := zlo I16 b0 b1 in let* u1 := zhi I16 b0 b1 in let* u2 := zlo I16 b2 b3 in
    let* t1 := i_align A I8 s 12 u0 u1 in
    let* t2 := i_align A I8 s 8 u1 u2 in
    let* t3 := i_move_l A I8 s 4 u2 in
    let* b0 := zlo I8 u0 t1 in let* b1 := zlo I8 t2 t3 in
    let* b2 := zhi I8 u0 t1 in let* b3 := zhi I8 t2 t3 in
    let* ra := zlo I16 b0 b1 in let* rb := zhi I16 b0 b1 in let* rc := zlo I16 b2 b3 in
    Ok [ra; rb; rc].
  (** mem_unpack.h:159-223 *)
  Definition unpack3_16_perm (a b c : Z) : res (list Z) :=
    let m1 := [0; 3; 6; 9; 12; 15; 10; 13] in
    let* a1 := shuffle_mask A s 2 m1 a b in
    let* c1 := shuffle_mask A s 2 m1 b c in
    let* b1 := shuffle_mask A s 2 m1 c a in
    let* m2 := ones_l I16 W16 2 in
    let* a2 := blend_e A I16 s a1 c1 m2 in
    let* b2 := blend_e A I16 s b1 a1 m2 in
    let* c2 := blend_e A I16 s c1 b1 m2 in
    let* rb := i_align A I16 s 3 b2 b2 in
    let* rc := i_align A I16 s 6 c2 c2 in Ok [a2; rb; rc].
  Definition unpack3_16_zip (a b c : Z) : res (list Z) :=
    let* t1 := i_align A I16 s 6 a b in
    let* t2 := i_align A I16 s 4 b c in
    let* t3 := i_move_l A I16 s 2 c in
    let* b0 := zlo I16 a t1 in let* b1 := zlo I16 t2 t3 in
    let* b2 := zhi I16 a t1 in let* b3 := zhi I16 t2 t3 in
    let* c0 := zlo I32 b0 b1 in let* c1 := zhi I32 b0 b1 in let* c2 := zlo I32 b2 b3 in
    let* t1 := sh1 I64 1 0 c0 c1 in
    let* t2 := i_splat_n A I64 s 1 c1 in
    let* ra := zlo I16 c0 t2 in let* rb := zlo I16 t1 c2 in let* rc := zhi I16 t1 c2 in
    Ok [ra; rb; rc].
  (** mem_unpack.h:227-276 *)
  Definition unpack3_32_perm (e : et) (a b c : Z) : res (list Z) :=
    let m1 := [0; 3; 6; 5] in
    let* a1 := shuffle_mask A s 4 m1 a b in
    let* b1 := shuffle_mask A s 4 m1 b c in
    let* c1 := shuffle_mask A s 4 m1 c a in
    let* m2 := ones_l I32 W32 1 in
    let* a2 := blend_e A e s a1 b1 m2 in
    let* b2 := blend_e A e s b1 c1 m2 in
    let* c2 := blend_e A e s c1 a1 m2 in
    let* rb := i_align A e s 3 b2 b2 in
    let* rc := i_align A e s 2 c2 c2 in Ok [a2; rb; rc].
  Definition unpack3_32_shuf (e : et) (a b c : Z) : res (list Z) :=
    let* t12 := sh2 e 0 1 2 3 c b in
    let* t21 := sh2 e 0 1 0 1 a b in
    let* t22 := sh2 e 2 3 2 3 b c in
    let* t31 := sh2 e 2 3 0 1 a b in
    let* ra := sh2 e 0 3 2 1 a t12 in
    let* rb := sh2 e 1 2 1 2 t21 t22 in
    let* rc := sh2 e 0 3 0 3 t31 c in Ok [ra; rb; rc].
  (** mem_unpack.h:280-286 *)
  Definition unpack3_64 (e : et) (a b c : Z) : res (list Z) :=
    let* d0 := sh1 e 0 1 a b in let* d1 := sh1 e 1 0 a c in let* d2 := sh1 e 0 1 b c in Ok [d0; d1; d2].
  (** mem_unpack.h:291-339 *)
  Definition unpack3_shuffle128 (a b c : Z) : list Z :=
    match s with
    | R128 => [a; b; c]
    | R256 => [shuf1_128 0 1 a b; shuf1_128 1 0 a c; shuf1_128 0 1 b c]
    | R512 =>
        let t12 := shuffle2_128 0 1 2 3 c b in let t21 := shuffle2_128 0 1 0 1 a b in
        let t22 := shuffle2_128 2 3 2 3 b c in let t31 := shuffle2_128 2 3 0 1 a b in
        [shuffle2_128 0 3 2 1 a t12; shuffle2_128 1 2 1 2 t21 t22; shuffle2_128 0 3 0 3 t31 c]
    end.
  Definition unpack3_impl (e : et) (a b c : Z) : res (list Z) :=
    let am := use_altivec A || use_msa A in
    match e with
    | I8 => if am then unpack3_8_perm a b c else unpack3_8_zip a b c
    | I16 => if am then unpack3_16_perm a b c else unpack3_16_zip a b c
    | I32 | F32 => if am then unpack3_32_perm e a b c else unpack3_32_shuf e a b c
    | I64 | F64 => unpack3_64 e a b c
    end.
  (** mem_unpack.h:341-390 *)
  Definition mem_unpack3 (e : et) (a b c : Z) : res (list Z) :=
    let l := unpack3_shuffle128 a b c in unpack3_impl e (g l 0) (g l 1) (g l 2).

  (** mem_unpack.h:397-444 *)
  Definition unpack4_8_inplace (a b c d : Z) : res (list Z) :=
    let* a := transpose_inplace A s a in let* b := transpose_inplace A s b in
    let* c := transpose_inplace A s c in let* d := transpose_inplace A s d in
    let* r := i_transpose4 A I32 s a b c d in
    let '(a, b, c, d) := r in Ok [a; b; c; d].
  Definition unpack4_8_zip (a b c d : Z) : res (list Z) :=
    let* b0 := zlo I8 a b in let* b1 := zhi I8 a b in let* b2 := zlo I8 c d in let* b3 := zhi I8 c d in
    let* c0 := zlo I8 b0 b1 in let* c1 := zhi I8 b0 b1 in let* c2 := zlo I8 b2 b3 in let* c3 := zhi I8 b2 b3 in
    let* d0 := zlo I8 c0 c1 in let* d1 := zhi I8 c0 c1 in let* d2 := zlo I8 c2 c3 in let* d3 := zhi I8 c2 c3 in
    let* ra := zlo I64 d0 d2 in let* rb := zhi I64 d0 d2 in let* rc := zlo I64 d1 d3 in let* rd := zhi I64 d1 d3 in
    Ok [ra; rb; rc; rd].
  (** mem_unpack.h:448-475 *)
  Definition unpack4_16 (a b c d : Z) : res (list Z) :=
    let* t0 := zlo I16 a b in let* t1 := zhi I16 a b in let* t2 := zlo I16 c d in let* t3 := zhi I16 c d in
    let* u0 := zlo I16 t0 t1 in let* u1 := zhi I16 t0 t1 in let* u2 := zlo I16 t2 t3 in let* u3 := zhi I16 t2 t3 in
    let* ra := zlo I64 u0 u2 in let* rb := zhi I64 u0 u2 in let* rc := zlo I64 u1 u3 in let* rd := zhi I64 u1 u3 in
    Ok [ra; rb; rc; rd].
  (** mem_unpack.h:479-493: transpose4; transpose2(a,c), transpose2(b,d), swap b and c *)
  Definition tr4 (e : et) (a b c d : Z) : res (list Z) :=
    let* r := i_transpose4 A e s a b c d in let '(a, b, c, d) := r in Ok [a; b; c; d].
  Definition unpack4_64 (e : et) (a b c d : Z) : res (list Z) :=
    let* p := i_transpose2 A e s a c in
    let* q := i_transpose2 A e s b d in Ok [fst p; snd p; fst q; snd q].
  (** mem_unpack.h:497-549 *)
  Definition unpack4_shuffle128 (a b c d : Z) : list Z :=
    match s with
    | R128 => [a; b; c; d]
    | R256 => [shuf1_128 0 0 a c; shuf1_128 1 1 a c; shuf1_128 0 0 b d; shuf1_128 1 1 b d]
    | R512 =>
        let t1 := shuffle2_128 0 2 0 2 a b in let t2 := shuffle2_128 1 3 1 3 a b in
        let t3 := shuffle2_128 0 2 0 2 c d in let t4 := shuffle2_128 1 3 1 3 c d in
        [shuffle2_128 0 2 0 2 t1 t3; shuffle2_128 0 2 0 2 t2 t4; shuffle2_128 1 3 1 3 t1 t3; shuffle2_128 1 3 1 3 t2 t4]
    end.
  Definition unpack4_impl (e : et) (a b c d : Z) : res (list Z) :=
    match e with
    | I8 => if use_ssse3 A || use_altivec A || use_msa A then unpack4_8_inplace a b c d else unpack4_8_zip a b c d
    | I16 => unpack4_16 a b c d
    | I32 | F32 => tr4 e a b c d
    | I64 | F64 => unpack4_64 e a b c d
    end.
  (** mem_unpack.h:552-604 *)
  Definition mem_unpack4 (e : et) (a b c d : Z) : res (list Z) :=
    let l := unpack4_shuffle128 a b c d in unpack4_impl e (g l 0) (g l 1) (g l 2) (g l 3).

  (** mem_pack.h:41-76 *)
  Definition mem_pack2 (e : et) (a b : Z) : res (list Z) :=
    let* c1 := zlo e a b in let* c2 := zhi e a b in
    Ok match s with
       | R128 => [c1; c2]
       | R256 => [shuf1_128 0 0 c1 c2; shuf1_128 1 1 c1 c2]
       | R512 => let d1 := shuffle2_128 0 1 0 1 c1 c2 in let d2 := shuffle2_128 2 3 2 3 c1 c2 in
                 [permute4_128 0 2 1 3 d1; permute4_128 0 2 1 3 d2]
       end.
  (** mem_pack.h:84-197 *)
  Definition pack3_8_perm (a b c : Z) : res (list Z) :=
    let* a1 := i_align A I8 s 11 a a in
    let* c1 := i_align A I8 s 5 c c in
    let* m1 := ones_l I8 W8 5 in
    let* a2 := blend_e A I8 s a1 b m1 in
    let* b2 := blend_e A I8 s b c1 m1 in
    let* c2 := blend_e A I8 s c1 a1 m1 in
    let m2 := [5; 16; 27; 6; 17; 28; 7; 18; 29; 8; 19; 30; 9; 20; 31; 10] in
    let* ra := shuffle_mask A s 1 m2 a2 b2 in
    let* rb := shuffle_mask A s 1 m2 b2 c2 in
    let* rc := shuffle_mask A s 1 m2 c2 a2 in Ok [ra; rb; rc].
  (** drop the fourth byte (16-bit element) of every group of four *)
  Definition squeeze8 (u : Z) : res Z :=
    if use_ssse3 A then
      let* idx := i_make_const A W8 s [0; 1; 2; 4; 5; 6; 8; 9; 10; 12; 13; 14; 0xff; 0xff; 0xff; 0xff] 0 in
      i_permute_bytes16 A s u idx
    else
      let* mask1 := i_make_const A W8 s [0xff; 0xff; 0xff; 0; 0; 0; 0; 0; 0xff; 0xff; 0xff; 0; 0; 0; 0; 0] 0 in
      let* w := i_shift_r A false W64 s u 8 in
      let* u := blend_e A I8 s u w mask1 in
      let* mask2 := i_make_const A W8 s [0xff; 0xff; 0xff; 0xff; 0xff; 0xff; 0; 0; 0; 0; 0; 0; 0; 0; 0; 0] 0 in
      let* x := i_move_l A I8 s 2 u in
      blend_e A I8 s u x mask2.
  Definition squeeze16 (u : Z) : res Z :=
    if use_ssse3 A then
      let* idx := make_shuffle_bytes16_mask A s 2 [0; 1; 2; 4; 5; 6; -1; -1] in
      i_permute_bytes16 A s u idx
    else
      let* mask2 := i_make_const A W16 s [0xffff; 0xffff; 0xffff; 0; 0; 0; 0; 0] 0 in
      let* x := i_move_l A I16 s 1 u in
      blend_e A I16 s u x mask2.
  Definition pack3_tail (u0 u1 u2 u3 : Z) : res (list Z) :=
    let* l0 := i_move_r A I32 s 3 u1 in
    let* l3 := i_move_l A I32 s 2 u2 in
    let* k3 := i_move_r A I32 s 1 u3 in
    let* ra := i_bit_or A W32 s u0 l0 in
    let* rb := sh2 I32 1 2 0 1 u1 u2 in
    let* rc := i_bit_or A W32 s k3 l3 in Ok [ra; rb; rc].
  Definition pack3_zip (e e2 : et) (squeeze : Z -> res Z) (a b c : Z) : res (list Z) :=
    let* t0 := zlo e a b in let* t1 := zhi e a b in let* t2 := zlo e c 0 in let* t3 := zhi e c 0 in
    let* u0 := zlo e2 t0 t2 in let* u1 := zhi e2 t0 t2 in let* u2 := zlo e2 t1 t3 in let* u3 := zhi e2 t1 t3 in
    let* u0 := squeeze u0 in let* u1 := squeeze u1 in let* u2 := squeeze u2 in let* u3 := squeeze u3 in
    pack3_tail u0 u1 u2 u3.
  (** mem_pack.h:201-294 *)
  Definition pack3_16_perm (a b c : Z) : res (list Z) :=
    let* b1 := i_align A I16 s 5 b b in
    let* c1 := i_align A I16 s 2 c c in
    let* m2 := ones_l I16 W16 2 in
    let* a2 := blend_e A I16 s a b1 m2 in
    let* b2 := blend_e A I16 s b1 c1 m2 in
    let* c2 := blend_e A I16 s c1 a m2 in
    let m1 := [0; 11; 14; 1; 12; 15; 2; 13] in
    let* ra := shuffle_mask A s 2 m1 a2 b2 in
    let* rb := shuffle_mask A s 2 m1 c2 a2 in
    let* rc := shuffle_mask A s 2 m1 b2 c2 in Ok [ra; rb; rc].
  (** mem_pack.h:298-348 *)
  Definition pack3_32_perm (e : et) (a b c : Z) : res (list Z) :=
    let* b1 := i_align A e s 1 b b in
    let* c1 := i_align A e s 2 c c in
    let* m2 := ones_l I32 W32 1 in
    let* a2 := blend_e A e s a c1 m2 in
    let* b2 := blend_e A e s b1 a m2 in
    let* c2 := blend_e A e s c1 b1 m2 in
    let m1 := [0; 7; 6; 1] in
    let* ra := shuffle_mask A s 4 m1 a2 c2 in
    let* rb := shuffle_mask A s 4 m1 b2 a2 in
    let* rc := shuffle_mask A s 4 m1 c2 b2 in Ok [ra; rb; rc].
  Definition pack3_32_shuf (e : et) (a b c : Z) : res (list Z) :=
    let* t0 := sh2 e 0 2 0 2 a b in
    let* t1 := sh2 e 0 2 1 3 c a in
    let* t2 := sh2 e 1 3 1 3 b c in
    let* t0 := i_permute4 A e s 0 2 1 3 t0 in
    let* t1 := i_permute4 A e s 0 2 1 3 t1 in
    let* t2 := i_permute4 A e s 0 2 1 3 t2 in
    let* ra := sh2 e 0 1 0 1 t0 t1 in
    let* rb := sh2 e 0 1 2 3 t2 t0 in
    let* rc := sh2 e 2 3 2 3 t1 t2 in Ok [ra; rb; rc].
  (** mem_pack.h:352-358 *)
  Definition pack3_64 (e : et) (a b c : Z) : res (list Z) :=
    let* d0 := sh1 e 0 0 a b in let* d1 := sh1 e 0 1 c a in let* d2 := sh1 e 1 1 b c in Ok [d0; d1; d2].
  (** mem_pack.h:362-408 *)
  Definition pack3_shuffle128 (a b c : Z) : list Z :=
    match s with
    | R128 => [a; b; c]
    | R256 => [shuf1_128 0 0 a b; shuf1_128 0 1 c a; shuf1_128 1 1 b c]
    | R512 =>
        let t0 := permute4_128 0 2 1 3 (shuffle2_128 0 2 0 2 a b) in
        let t1 := permute4_128 0 2 1 3 (shuffle2_128 0 2 1 3 c a) in
        let t2 := permute4_128 0 2 1 3 (shuffle2_128 1 3 1 3 b c) in
        [shuffle2_128 0 1 0 1 t0 t1; shuffle2_128 0 1 2 3 t2 t0; shuffle2_128 2 3 2 3 t1 t2]
    end.
  Definition pack3_impl (e : et) (a b c : Z) : res (list Z) :=
    let am := use_altivec A || use_msa A in
    match e with
    | I8 => if am then pack3_8_perm a b c else pack3_zip I8 I16 squeeze8 a b c
    | I16 => if am then pack3_16_perm a b c else pack3_zip I16 I32 squeeze16 a b c
    | I32 | F32 => if am then pack3_32_perm e a b c else pack3_32_shuf e a b c
    | I64 | F64 => pack3_64 e a b c
    end.
  (** mem_pack.h:411-460 *)
  Definition mem_pack3 (e : et) (a b c : Z) : res (list Z) :=
    let* l := pack3_impl e a b c in Ok (pack3_shuffle128 (g l 0) (g l 1) (g l 2)).

  (** mem_pack.h:465-510 *)
  Definition pack4_8_inplace (a b c d : Z) : res (list Z) :=
    let* r := i_transpose4 A I32 s a b c d in
    let '(a, b, c, d) := r in
    let* a := transpose_inplace A s a in let* b := transpose_inplace A s b in
    let* c := transpose_inplace A s c in let* d := transpose_inplace A s d in Ok [a; b; c; d].
  (** e, then elements of twice the size e2: mem_pack.h:465-510 and 514-543 *)
  Definition pack4_zip (e e2 : et) (a b c d : Z) : res (list Z) :=
    let* e0 := zlo I64 a c in let* e1 := zlo I64 b d in let* e2' := zhi I64 a c in let* e3 := zhi I64 b d in
    let* f0 := zlo e e0 e1 in let* f1 := zhi e e0 e1 in let* f2 := zlo e e2' e3 in let* f3 := zhi e e2' e3 in
    let* ra := zlo e2 f0 f1 in let* rb := zhi e2 f0 f1 in let* rc := zlo e2 f2 f3 in let* rd := zhi e2 f2 f3 in
    Ok [ra; rb; rc; rd].
  (** mem_pack.h:547-562 *)
  Definition pack4_64 (e : et) (a b c d : Z) : res (list Z) :=
    let* p := i_transpose2 A e s a b in
    let* q := i_transpose2 A e s c d in Ok [fst p; fst q; snd p; snd q].
  (** mem_pack.h:565-620 *)
  Definition pack4_shuffle128 (a b c d : Z) : list Z :=
    match s with
    | R128 => [a; b; c; d]
    | R256 => [shuf1_128 0 0 a b; shuf1_128 0 0 c d; shuf1_128 1 1 a b; shuf1_128 1 1 c d]
    | R512 => unpack4_shuffle128 a b c d
    end.
  Definition pack4_impl (e : et) (a b c d : Z) : res (list Z) :=
    match e with
    | I8 => if use_ssse3 A || use_altivec A || use_msa A then pack4_8_inplace a b c d else pack4_zip I8 I16 a b c d
    | I16 => pack4_zip I16 I32 a b c d
    | I32 | F32 => tr4 e a b c d
    | I64 | F64 => pack4_64 e a b c d
    end.
  (** mem_pack.h:623-680 *)
  Definition mem_pack4 (e : et) (a b c d : Z) : res (list Z) :=
    let* l := pack4_impl e a b c d in Ok (pack4_shuffle128 (g l 0) (g l 1) (g l 2) (g l 3)).

  (** the number of vectors picks the function *)
  Definition mem_unpack (e : et) (l : list Z) : res (list Z) :=
    match l with
    | [a; b] => mem_unpack2 e a b | [a; b; c] => mem_unpack3 e a b c | [a; b; c; d] => mem_unpack4 e a b c d
    | _ => NotImpl
    end.
  Definition mem_pack (e : et) (l : list Z) : res (list Z) :=
    match l with
    | [a; b] => mem_pack2 e a b | [a; b; c] => mem_pack3 e a b c | [a; b; c; d] => mem_pack4 e a b c d
    | _ => NotImpl
    end.
End P.

(** vldNq / vstNq: the N vectors at p, de-interleaved; elements must be aligned *)
Definition vldNq (w : Z) (N : nat) (p : Z) (m : mem) : res (list Z) :=
  require (aligned (w / 8) p)
    (let* r := rd (128 * Z.of_nat N) p m in
     Ok (map (fun j => pack w 128 (fun i => lane w (Z.of_nat N * i + Z.of_nat j) r)) (seq 0 N))).
Definition vstNq (w : Z) (p : Z) (l : list Z) (m : mem) : res mem :=
  let N := Z.of_nat (length l) in
  require (aligned (w / 8) p)
    (wr_reg (128 * N) p (pack w (128 * N) (fun x => lane w (x / N) (nth (Z.to_nat (x mod N)) l 0))) m).
(** null/memory.h:34-66 and 112-146.  Loads do not change the memory, so their order does not
    matter. *)
Definition null_load_packed (w : Z) (N : nat) (p : Z) (m : mem) : res (list Z) :=
  let ld j := mkM w (nl w 128) (fun i => ld_el w (p + (Z.of_nat N * i + Z.of_nat j) * (w / 8)) m) in
  fold_right (fun j r => let* x := ld j in let* l := r in Ok (x :: l)) (Ok []) (seq 0 N).
(** elements x, x+1, ... of the interleaved sequence *)
Fixpoint null_st_packed (w p : Z) (l : list Z) (x : Z) (k : nat) (m : mem) : res mem :=
  match k with
  | O => Ok m
  | S k => let N := Z.of_nat (length l) in
      let* m := st_el w (p + x * (w / 8)) (lane w (x / N) (nth (Z.to_nat (x mod N)) l 0)) m in
      null_st_packed w p l (x + 1) k m
  end.
Definition null_store_packed (w p : Z) (l : list Z) (m : mem) : res mem :=
  null_st_packed w p l 0 (length l * nl w 128) m.

(** N registers from p on: a = i_load(p); b = i_load(p + 16); ... *)
Fixpoint load_regs (A : arch) (e : et) (s : rsz) (N : nat) (p : Z) (m : mem) : res (list Z) :=
  match N with
  | O => Ok []
  | S N => let* x := i_load A e s p m in let* l := load_regs A e s N (p + rbits s / 8) m in Ok (x :: l)
  end.
Fixpoint store_regs (A : arch) (e : et) (s : rsz) (p : Z) (l : list Z) (m : mem) : res mem :=
  match l with
  | [] => Ok m
  | x :: l => let* m := i_store A e s p x m in store_regs A e s (p + rbits s / 8) l m
  end.
(** v128_load_packedN, v256_load_packedN, v512_load_packedN: load_packed2.h:229-264,
    load_packed3.h:250-289, load_packed4.h:255-297 *)
Definition v_load_packed (A : arch) (e : et) (s : rsz) (N : nat) (p : Z) (m : mem) : res (list Z) :=
  assume_aligned (rbits s / 8) p
    (let* l := load_regs A e s N p m in mem_unpack A s e l).
(** v128_store_packN and the 256/512-bit versions: store_packed2.h:236-264 (which assumes
    32-byte alignment in all three), store_packed3.h, store_packed4.h *)
Definition store_align (N : nat) (s : rsz) : Z := match N with 2%nat => 32 | _ => rbits s / 8 end.
Definition v_store_packed (A : arch) (e : et) (s : rsz) (p : Z) (l : list Z) (m : mem) : res mem :=
  assume_aligned (store_align (length l) s) p
    (let* r := mem_pack A s e l in store_regs A e s p r m).
(** load_packed3.h:146-165, NEON32 *)
Definition neon32_load_packed3 (A : arch) (p : Z) (m : mem) : res (list Z) :=
  let* a0 := i_load A I64 R128 p m in
  let* b0 := i_load A I64 R128 (p + 16) m in
  let* c0 := i_load A I64 R128 (p + 32) m in
  Ok [vcombine (vget_low a0) (vget_high b0); vcombine (vget_high a0) (vget_low c0);
      vcombine (vget_low b0) (vget_high c0)].
(** vst2_u64(q, t): the two 64-bit values at q *)
Definition vst2_u64 (p x y : Z) (m : mem) : res mem := require (aligned 8 p) (wr_reg 128 p (vcombine x y) m).
(** store_packed3.h:147-156 *)
Definition neon32_store_packed3 (p : Z) (l : list Z) (m : mem) : res mem :=
  let a := g l 0 in let b := g l 1 in let c := g l 2 in
  let* m := vst2_u64 p (vget_low a) (vget_low b) m in
  let* m := vst2_u64 (p + 16) (vget_low c) (vget_high a) m in
  vst2_u64 (p + 32) (vget_high b) (vget_high c) m.

(** which functions start with assume_aligned(p, 16) *)
Definition assume16 {X} (b : bool) (p : Z) (r : res X) : res X := if b then assume_aligned 16 p r else r.
(** load_packed2.h 30-226, load_packed3.h 30-247, load_packed4.h 30-252 *)
Definition i_load_packed (A : arch) (N : nat) (e : et) (s : rsz) (p : Z) (m : mem) : res (list Z) :=
  let v := v_load_packed A e s N p m in
  let w := eb e in
  let null := null_load_packed w N p m in
  let neon := vldNq w N p m in
  match s with
  | R128 =>
    assume16 (match e, N with I64, 4%nat => false | _, _ => true end) p
    match e with
    | I8 | I16 | I32 =>
        if use_null A then null else if use_sse2 A || use_altivec A || use_msa A then v
        else if use_neon A then neon else UB
    | I64 =>
        match N with
        | 3%nat => if use_sse2 A || use_vsx207 A || use_msa A then v
             else if use_neon64 A then neon
             else if use_neon32 A then neon32_load_packed3 A p m
             else if use_null A || use_altivec A then null else UB
        | _ => if use_neon64 A then neon
             else if use_sse2 A || use_neon A || use_vsx207 A || use_msa A then v
             else if use_null A || use_altivec A then null else UB
        end
    | F32 =>
        if use_null A || use_neon_no_flt_sp A then null else if use_sse2 A || use_altivec A || use_msa A then v
        else if use_neon A then neon else UB
    | F64 =>
        if use_neon64 A then neon
        else if use_sse2 A || use_vsx206 A || use_msa A then v
        else if use_null A || use_neon A || use_altivec A then null else UB
    end
  | _ => if_wide A e s v
  end.
(** store_packed2.h 34-232, store_packed3.h 34-236, store_packed4.h 34-240 *)
Definition i_store_packed (A : arch) (e : et) (s : rsz) (p : Z) (l : list Z) (m : mem) : res mem :=
  let v := v_store_packed A e s p l m in
  let w := eb e in
  let null := null_store_packed w p l m in
  let neon := vstNq w p l m in
  match s with
  | R128 =>
    assume16 (match e, length l with I64, 2%nat | F64, 2%nat | I64, 4%nat => false | _, _ => true end) p
    match e with
    | I8 | I16 | I32 =>
        if use_null A then null else if use_sse2 A || use_altivec A || use_msa A then v
        else if use_neon A then neon else UB
    | I64 =>
        match length l with
        | 3%nat => if use_sse2 A || use_vsx207 A || use_msa A then v
             else if use_neon32 A then neon32_store_packed3 p l m
             else if use_neon64 A then neon
             else if use_null A || use_altivec A then null else UB
        | _ => if use_neon64 A then neon
             else if use_sse2 A || use_neon A || use_vsx207 A || use_msa A then v
             else if use_null A || use_altivec A then null else UB
        end
    | F32 =>
        if use_null A || use_neon_no_flt_sp A then null else if use_sse2 A || use_altivec A || use_msa A then v
        else if use_neon A then neon else UB
    | F64 =>
        if use_neon64 A then neon
        else if use_sse2 A || use_vsx206 A || use_msa A then v
        else if use_null A || use_neon A || use_altivec A then null else UB
    end
  | _ => if_wide A e s v
  end.

(** the loops over the registers of a long vector: load_packed2.h:268-283, store_packed2.h:267-278
    and the corresponding ones; p += veclen*N *)
Fixpoint loop_load (f : Z -> mem -> res (list Z)) (step : Z) (k : nat) (p : Z) (m : mem) : res (list (list Z)) :=
  match k with
  | O => Ok []
  | S k => let* l := f p m in let* r := loop_load f step k (p + step) m in Ok (l :: r)
  end.
Fixpoint loop_store (f : Z -> list Z -> mem -> res mem) (step : Z) (p : Z) (ls : list (list Z)) (m : mem) : res mem :=
  match ls with
  | [] => Ok m
  | l :: ls => let* m := f p l m in loop_store f step (p + step) ls m
  end.
(** register i of each of the vectors, for each i *)
Definition columns (k : nat) (vs : list vec) : list (list Z) := map (fun i => map (fun v => nth i v 0) vs) (seq 0 k).
Definition rows (N : nat) (cs : list (list Z)) : list vec := map (fun j => map (fun c => nth j c 0) cs) (seq 0 N).
(** core/load_packedN.h, core/store_packedN.h *)
Definition load_packed (A : arch) (N : nat) (e : et) (s : rsz) (k : nat) (p : Z) (m : mem) : res (list vec) :=
  assume_aligned (rbits s / 8) p
    (let* cs := loop_load (i_load_packed A N e s) (rbits s / 8 * Z.of_nat N) k p m in Ok (rows N cs)).
Definition store_packed (A : arch) (e : et) (s : rsz) (k : nat) (p : Z) (vs : list vec) (m : mem) : res mem :=
  assume_aligned (rbits s / 8) p
    (loop_store (i_store_packed A e s) (rbits s / 8 * Z.of_nat (length vs)) p (columns k vs) m).
