(** reduce_add, reduce_mul, reduce_min, reduce_max of float32 and float64: detail/insn/
    f_reduce_{add,mul,min,max}.h, core/f_reduce_{add,mul,min,max}.h.  Results are lane patterns. *)
From Verif Require Export Model.FArith Model.FMinMax Model.Reduce.

(** HADDPS, HADDPD on 128 bits: sums of the pairs of a, then of b *)
Definition mm_hadd_f (w a b : Z) : Z :=
  let n := 128 / w in
  pack w 128 (fun i => let x := if i <? n / 2 then a else b in let j := 2 * (i mod (n / 2)) in f_add w (lane w j x) (lane w (j + 1) x)).
(** MOVHLPS: the high half of b, then the high half of a *)
Definition mm_movehl (a b : Z) : Z := pack 64 128 (fun i => if i =? 0 then lane 64 1 b else lane 64 1 a).
(** VPADD, VPMIN, VPMAX on two 64-bit registers: the pairs of a, then of b *)
Definition vp_f32 (f : Z -> Z -> Z) (a b : Z) : Z :=
  pack 32 64 (fun i => let x := if i =? 0 then a else b in f (lane 32 0 x) (lane 32 1 x)).
(** FMINNMV: minNum of the halves, recursively *)
Definition vminnmv (f : Z -> Z -> Z) (d : bool) (a : Z) : Z :=
  if d then f (lane 64 0 a) (lane 64 1 a)
  else f (f (lane 32 0 a) (lane 32 1 a)) (f (lane 32 2 a) (lane 32 3 a)).

(** which of the four *)
Inductive rop := RAdd | RMul | RMin | RMax.
Section R.
  Variables (A : arch) (fp : Z) (o : rop).
  Definition r_op (d : bool) (s : rsz) (a b : Z) : res Z :=
    match o with RAdd => i_fadd A d s a b | RMul => i_fmul A d s a b | RMin => i_fmin A d s a b | RMax => i_fmax A d s a b end.
  (** r += x, r *= x, r = r < x ? r : x, r = r > x ? r : x *)
  Definition r_scalar (w x y : Z) : Z :=
    match o with RAdd => f_add w x y | RMul => f_mul w x y | RMin => mm_fmin w x y | RMax => mm_fmax w x y end.
  (** the 64-bit NEON operations vpadd, vmul, vpmin, vpmax *)
  Definition r_neon (w x y : Z) : Z :=
    let z := fz (ftz A false) w in
    match o with RAdd => z (f_add w (z x) (z y)) | RMul => z (f_mul w (z x) (z y)) | RMin => hw_fmin w (z x) (z y) | RMax => hw_fmax w (z x) (z y) end.
  Definition r_null (d : bool) (a : Z) : res Z :=
    let w := fw d in
    Ok (fold_left (r_scalar w) (map (fun i => lane w (Z.of_nat i) a) (seq 1 (nl w 128 - 1))) (lane w 0 a)).
  Definition is_add : bool := match o with RAdd => true | _ => false end.
  Definition is_mul : bool := match o with RMul => true | _ => false end.
  Definition is_mm : bool := match o with RMin | RMax => true | _ => false end.
  Definition r_minnm (w x y : Z) : Z := match o with RMax => msa_fmax w x y | _ => msa_fmin w x y end.

  (** f_reduce_add.h:29-57, f_reduce_mul.h:29-52, f_reduce_min.h:29-53, f_reduce_max.h:29-54 *)
  Definition red_f32 (a : Z) : res Z :=
    if use_null A || use_neon_no_flt_sp A then r_null false a
    else if is_add && use_sse3 A then
      let b := mm_hadd_f 32 a a in let b := mm_hadd_f 32 b b in Ok (lane 32 0 b)
    else if use_sse2 A then
      let* b := r_op false R128 a (mm_movehl a a) in
      let* p := i_permute2 A F32 R128 1 (match o with RMax => 1 | _ => 0 end) b in
      let* b := r_op false R128 b p in Ok (lane 32 0 b)
    else if is_mm && use_neon64 A then Ok (vminnmv (r_minnm 32) false a)
    else if use_neon_flt_sp A then
      let lo := lane 64 0 a in let hi := lane 64 1 a in
      if is_mul then
        let a2 := v2 32 64 (r_neon 32) lo hi in
        let a2 := v2 32 64 (r_neon 32) a2 (pack 32 64 (fun i => lane 32 (1 - i) a2)) in
        Ok (lane 32 0 a2)
      else
        let a2 := vp_f32 (r_neon 32) lo hi in let a2 := vp_f32 (r_neon 32) a2 a2 in Ok (lane 32 0 a2)
    else if use_altivec A || use_msa A then
      let* r := halve A (r_op false R128) F32 [1; 2] a in i_extract A fp false F32 R128 0 r
    else UB.
  (** f_reduce_add.h:92-112, f_reduce_mul.h:85-103, f_reduce_min.h:86-103, f_reduce_max.h:87-104 *)
  Definition red_f64 (a : Z) : res Z :=
    let pair k := let* p := i_permute2 A F64 R128 1 k a in r_op true R128 a p in
    if is_add && use_sse3 A then Ok (lane 64 0 (mm_hadd_f 64 a a))
    else if use_sse2 A then let* b := pair (if is_mul then 0 else 1) in Ok (lane 64 0 b)
    else if use_neon64 A then
      Ok (if is_mm then vminnmv (r_minnm 64) true a
          else r_scalar 64 (lane 64 0 a) (lane 64 1 a))
    else if use_vsx206 A || use_msa A then let* b := pair 1 in i_extract A fp false F64 R128 0 b
    else if use_null A || use_neon32 A || use_altivec A then r_null true a else UB.
  Definition red_f128 (d : bool) (a : Z) : res Z := if d then red_f64 a else red_f32 a.
  (** f_reduce_add.h:59-70, 114-124; f_reduce_mul.h:54-63, 105-114; f_reduce_min.h and
      f_reduce_max.h likewise *)
  Definition red_f256 (d : bool) (a : Z) : res Z :=
    let ah := mm_extract128 1 a in let al := mm_extract128 0 a in
    if is_add then
      let w := fw d in
      let al := mm_hadd_f w al ah in
      let al := mm_hadd_f w al al in
      let al := if d then al else mm_hadd_f w al al in Ok (lane w 0 al)
    else let* al := r_op d R128 al ah in red_f128 d al.
  (** f_reduce_add.h:72-78, 126-132 and likewise *)
  Definition red_f512 (d : bool) (a : Z) : res Z :=
    let* r := r_op d R256 (mm_extract256 0 a) (mm_extract256 1 a) in red_f256 d r.
  Definition red_f1 (d : bool) (s : rsz) (a : Z) : res Z :=
    fl_sizes A s (red_f128 d a) (red_f256 d a) (red_f512 d a).
  (** f_reduce_add.h:80-87, 134-141 and likewise: several registers *)
  Definition reduce_f (d : bool) (s : rsz) (va : vec) : res Z := red_multi (r_op d s) (red_f1 d s) va.
End R.
