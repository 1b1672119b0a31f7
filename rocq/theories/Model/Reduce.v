(** Horizontal reductions: core/i_reduce_{and,or,min,max,add}.h, detail/insn/i_reduce_{and,or,min,
    max,add}.h.  A vector of one register selects the non-template overload, a longer one the
    template.  Results are values of the C++ return type. [fp]: address of the stack memory of a
    mem_block. *)
From Verif Require Export Model.Popcnt Model.MinMax Model.Move.

(** for (...) r = f(r, x) with r a variable of type tr, over the elements l *)
Fixpoint accum (tr : cty) (f : cval -> cval -> res cval) (r : cval) (l : list cval) : res cval :=
  match l with
  | [] => Ok r
  | x :: l => let* v := f r x in accum tr f (ccast tr v) l
  end.
(** a.el(i), i = from .. length-1 *)
Definition els (t : cty) (R : Z) (from : nat) (a : Z) : list cval :=
  map (fun i => el t a (Z.of_nat i)) (seq from (nl (snd t) R - from)).
(** r = a.el(0), then the loop from [from] *)
Definition null_red1 (tr t : cty) (f : cval -> cval -> res cval) (from : nat) (a : Z) : res Z :=
  let* r := accum tr f (ccast tr (el t a 0)) (els t 128 from a) in Ok (snd r).
(** r = init; the loops over all registers and all their elements *)
Definition null_redN (tr t : cty) (f : cval -> cval -> res cval) (init : Z) (va : vec) : res Z :=
  let* r := accum tr f (tr, init) (flat_map (els t 128 0) va) in Ok (snd r).

Section R.
  Variables (A : arch) (fp : Z).

  (** r = op(r, moveN_l<k>(r)) for k = length/2, ..., 2, 1, then extract<0>(r) *)
  Definition shifts (e : et) : list Z :=
    match e with I8 => [8; 4; 2; 1] | I16 => [4; 2; 1] | I32 | F32 => [2; 1] | I64 | F64 => [1] end.
  Fixpoint halve (op : Z -> Z -> res Z) (e : et) (ks : list Z) (r : Z) : res Z :=
    match ks with
    | [] => Ok r
    | k :: ks => let* m := i_move_l A e R128 k r in let* r := op r m in halve op e ks r
    end.
  Definition red_tree (op : Z -> Z -> res Z) (sg : bool) (e : et) (a : Z) : res Z :=
    let* r := halve op e (shifts e) a in i_extract A fp sg e R128 0 r.
  (** 256-bit: op of the halves, then the 128-bit reduction (the 32 and 64-bit overloads inline
      it); 512-bit: op of the halves, then the 256-bit reduction *)
  Definition red_wide (op : rsz -> Z -> Z -> res Z) (red128 : Z -> res Z) (e : et) (s : rsz) (a : Z) : res Z :=
    let r256 a := let* r := op R128 (mm_extract128 0 a) (mm_extract128 1 a) in red128 r in
    match s with
    | R128 => red128 a
    | R256 => if_wide A e s (r256 a)
    | R512 => if_wide A e s (let* r := op R256 (mm_extract256 0 a) (mm_extract256 1 a) in r256 r)
    end.
  (** r = a.vec<0>(); r = op(r, a.vec(j)); then the one-register reduction *)
  Fixpoint foldv (op : Z -> Z -> res Z) (r : Z) (va : vec) : res Z :=
    match va with [] => Ok r | a :: va => let* r := op r a in foldv op r va end.
  Definition red_multi (op : Z -> Z -> res Z) (red1 : Z -> res Z) (va : vec) : res Z :=
    match va with
    | [] => UB
    | a :: va => let* r := foldv op a va in red1 r
    end.

  (** ---------------- reduce_or, reduce_and ---------------- *)
  (** i_reduce_or.h: u8 27-80, u16 86-138, u32 144-196, u64 202-252; i_reduce_and.h: same lines.
      [isand]: which of the two.  The unsigned result is reinterpreted for signed vectors. *)
  Section B.
    Variables (isand : bool).
    Definition b_op w s := if isand then i_bit_and A w s else i_bit_or A w s.
    Definition b_null := if isand then c_and else c_or.
    Definition b_init (w : ew) := if isand then 2 ^ wb w - 1 else 0.
    Definition red_bits128 (w : ew) (a : Z) : res Z :=
      let t := ut w in
      let null := null_red1 t t b_null (match w with W8 => if isand then 0%nat else 1%nat | _ => 0%nat end) a in
      let vec := red_tree (b_op w R128) false (iet w) a in
      match w with
      | W64 => if use_sse2 A || use_neon A || use_vsx207 A || use_msa A then vec
               else if use_null A || use_altivec A then null else UB
      | _ => if use_null A then null
             else if use_sse2 A || use_neon A || use_altivec A || use_msa A then vec else UB
      end.
    Definition reduce_bits (w : ew) (s : rsz) (va : vec) : res Z :=
      let one := red_wide (fun s => b_op w s) (red_bits128 w) (iet w) s in
      match va with
      | [a] => one a
      | _ => if use_null A || (match w with W64 => isand && use_altivec A && negb (use_vsx207 A) | _ => false end)
             then null_redN (ut w) (ut w) b_null (b_init w) va
             else red_multi (b_op w s) one va
      end.
  End B.
  (** core/i_reduce_or.h:29-75, core/i_reduce_and.h:29-75 *)
  Definition reduce_or := reduce_bits false.
  Definition reduce_and := reduce_bits true.

  (** ---------------- reduce_min, reduce_max ---------------- *)
  Section M.
    Variables (mx : bool).
    Definition m_op (sg : bool) w s := if mx then i_max A sg w s else i_min A sg w s.
    (** r < x ? r : x, r > x ? r : x *)
    Definition m_null (r x : cval) : res cval := Ok (if (if mx then c_gt r x else c_lt r x) then r else x).
    (** std::numeric_limits<T>::max(), ::min() *)
    Definition m_init (sg : bool) (w : Z) : Z :=
      if mx then (if sg then - 2 ^ (w - 1) else 0) else (if sg then 2 ^ (w - 1) - 1 else 2 ^ w - 1).
    (** vminvq, vmaxvq *)
    Definition vminmaxv (sg : bool) (w a : Z) : Z :=
      fold_right (if mx then Z.max else Z.min) (m_init sg w)
        (map (fun i => if sg then sgn w (lane w i a) else lane w i a) (zrange (128 / w))).
    (** bit_xor(a, 0x80..0) *)
    Definition flip (w : ew) (s : rsz) (a : Z) : res Z :=
      let* k := konst A w s (2 ^ (wb w - 1)) in i_bit_xor A w s a k.
    (** mem_block<V> b = a: the elements b[from..] *)
    Definition block_els (t : cty) (e : et) (s : rsz) (from : nat) (a : Z) : res (list cval) :=
      let* m := mem_block A fp e s a in
      (fix go (l : list nat) : res (list cval) :=
         match l with
         | [] => Ok []
         | i :: l => let* x := mb_get fp (eb e) (Z.of_nat i) m in let* xs := go l in Ok ((t, cconv t x) :: xs)
         end) (seq from (nl (snd t) (rbits s) - from)).
    (** r = b[0]; for (i = 1; ...) r = r < b[i] ? r : b[i] *)
    Definition block_red (sg : bool) (w : ew) (a : Z) : res Z :=
      let t := sg2 sg (st w) (ut w) in
      let* xs := block_els t (iet w) R128 0 a in
      match xs with [] => UB | x :: xs => let* r := accum t m_null x xs in Ok (snd r) end.
    (** the branches of i_reduce_min.h, i_reduce_max.h shared by the 8, 16 and 32-bit overloads *)
    Definition null_mm (sg : bool) (w : ew) (a : Z) : res Z :=
      let t := sg2 sg (st w) (ut w) in
      null_red1 t t m_null (match w with W32 => if sg && negb mx then 1%nat else 0%nat | _ => 0%nat end) a.
    Definition tree_mm (sg : bool) (w : ew) (a : Z) : res Z := red_tree (m_op sg w R128) sg (iet w) a.
    (** with SSE2 but not SSE4.1 there is no native instruction: [fallback] *)
    Definition mm_native (sg : bool) (w : ew) (fallback : res Z) (a : Z) : res Z :=
      if use_null A then null_mm sg w a
      else if use_neon64 A then Ok (vminmaxv sg (wb w) a)
      else if use_sse41 A || use_neon A || use_altivec A || use_msa A then tree_mm sg w a
      else if use_sse2 A then fallback else UB.
    (** u8 29-45, s8 90-110, u16 165-184, s16 237-252, u32 297-318, s32 364-378, u64 424-440, s64
        496-512 of i_reduce_min.h; i_reduce_max.h: the same with the differences shown *)
    Definition red_mm128 (sg : bool) (w : ew) (a : Z) : res Z :=
      let block := block_red sg w a in
      let null := null_mm sg w a in
      match w, sg with
      | W8, false => mm_native false W8 (tree_mm false W8 a) a
      | W8, true => mm_native true W8 (let* c := flip W8 R128 a in
                      let* r := mm_native false W8 (tree_mm false W8 c) c in Ok (sgn 8 (Z.lxor r 0x80))) a
      | W16, true => mm_native true W16 (tree_mm true W16 a) a
      | W16, false => mm_native false W16 (let* c := flip W16 R128 a in
                      let* r := mm_native true W16 (tree_mm true W16 c) c in Ok (wrap 16 (Z.lxor r 0x8000))) a
      | W32, false => mm_native false W32 block a
      | W32, true => mm_native true W32 (tree_mm true W32 a) a
      | W64, false =>
          if use_avx2 A || use_neon64 A || use_vsx207 A || (use_msa A && negb mx) then tree_mm sg w a
          else if use_sse2 A || use_neon32 A then block
          else if use_null A || use_altivec A then null else NotImpl
      | W64, true =>
          if use_avx2 A || use_neon64 A || (if mx then use_vsx207 A else use_vsx206 A) || use_msa A then tree_mm sg w a
          else if use_sse2 A || (mx && use_neon32 A) then block
          else if use_null A || use_altivec A then null else NotImpl
      end.
    Definition red_mm1 (sg : bool) (w : ew) (s : rsz) (a : Z) : res Z :=
      red_wide (fun s => m_op sg w s) (red_mm128 sg w) (iet w) s a.
    (** the SSE2 templates of int8 (143-150) and uint16 (217-224) *)
    Fixpoint flips (w : ew) (va : vec) : res vec :=
      match va with [] => Ok [] | a :: va => let* c := flip w R128 a in let* cs := flips w va in Ok (c :: cs) end.
    Definition flip_multi (sg : bool) (w : ew) (s : rsz) (va : vec) : res Z :=
      let* vc := flips w va in
      let* r := red_multi (m_op (negb sg) w s) (red_mm128 (negb sg) w) vc in
      Ok (cconv (sg, wb w) (Z.lxor r (2 ^ (wb w - 1)))).
    Fixpoint blocks (t : cty) (e : et) (s : rsz) (va : vec) : res (list cval) :=
      match va with
      | [] => Ok []
      | a :: va => let* x := block_els t e s 0 a in let* xs := blocks t e s va in Ok (x ++ xs)
      end.
    Definition blocks_red (sg : bool) (w : ew) (s : rsz) (va : vec) : res Z :=
      let t := sg2 sg (st w) (ut w) in
      let* xs := blocks t (iet w) s va in
      let* r := accum t m_null (t, m_init sg (wb w)) xs in Ok (snd r).
    (** the templates: u8 67-84, s8 132-157, u16 206-231, s16 274-291, u32 341-358, s32 401-418,
        u64 462-490, s64 534-562.  SIMDPP_USE_AXV2 in i_reduce_max.h:539 is never defined. *)
    Definition reduce_mm (sg : bool) (w : ew) (s : rsz) (va : vec) : res Z :=
      let t := sg2 sg (st w) (ut w) in
      let null := null_redN t t m_null (m_init sg (wb w)) va in
      let multi := red_multi (m_op sg w s) (red_mm1 sg w s) va in
      let sse2_flip := if use_null A then null
                       else if use_sse2 A && negb (use_sse41 A) then flip_multi sg w s va else multi in
      match va with
      | [a] => red_mm1 sg w s a
      | _ =>
        match w, sg with
        | W8, true | W16, false => sse2_flip
        | W64, false => if use_avx2 A || use_neon64 A || use_vsx207 A || use_msa A then multi
                        else if use_sse2 A || use_neon32 A then blocks_red sg w s va
                        else if use_null A || use_altivec A then null else NotImpl
        | W64, true => if (use_avx2 A && negb mx) || use_neon64 A || (if mx then use_vsx207 A else use_vsx206 A) || use_msa A
                       then multi
                       else if use_sse2 A || use_neon32 A then blocks_red sg w s va
                       else if use_null A || use_altivec A then null else NotImpl
        | _, _ => if use_null A then null else multi
        end
      end.
  End M.
  (** core/i_reduce_min.h, core/i_reduce_max.h: 29-75 *)
  Definition reduce_min := reduce_mm false.
  Definition reduce_max := reduce_mm true.

  (** ---------------- reduce_add, 32 and 64 bits ---------------- *)
  (** HADD_U.D *)
  Definition msa_hadd_u (w a b : Z) : Z := pack (2 * w) 128 (fun i => lane w (2 * i + 1) a + lane w (2 * i) b).
  (** i_reduce_add.h: u32 557-575, u64 620-638 *)
  Definition red_add128 (w : ew) (a : Z) : res Z :=
    let t := ut w in
    match w with
    | W64 =>
        if use_null A then null_red1 t t c_add 1 a
        else if use_sse2 A then red_tree (i_add A W64 R128) false I64 a
        else if use_neon A then Ok (wrap 64 (lane 64 0 a + lane 64 1 a))
        else if use_altivec A || use_msa A then
          let* x := i_extract A fp false I64 R128 0 a in let* y := i_extract A fp false I64 R128 1 a in Ok (wrap 64 (x + y))
        else UB
    | _ =>
        if use_null A then null_red1 t t c_add 1 a
        else if use_msa A then
          let sum := msa_hadd_u 32 a a in
          let* m := i_move_l A I32 R128 2 sum in let* sum := i_add A W32 R128 sum m in i_extract A fp false I32 R128 0 sum
        else red_tree (i_add A W32 R128) false I32 a
    end.
  Definition red_add1 (w : ew) (s : rsz) (a : Z) : res Z := red_wide (fun s => i_add A w s) (red_add128 w) (iet w) s a.
  (** 578-614, 641-676; core/i_reduce_add.h:55-79: a signed vector is reinterpreted, and so is
      the result *)
  Definition reduce_add_32_64 (sg : bool) (w : ew) (s : rsz) (va : vec) : res Z :=
    let* r := match va with
              | [a] => red_add1 w s a
              | _ => if use_null A || (match w with W64 => use_altivec A && negb (use_vsx207 A) | _ => false end)
                     then null_redN (ut w) (ut w) c_add 0 va
                     else let* r := foldv (i_add A w s) 0 va in red_add1 w s r
              end in
    Ok (cconv (sg, wb w) r).
End R.
