(** min and max of floating-point vectors (detail/insn/f_min.h, f_max.h), clamp (core/f_clamp.h,
    core/i_clamp.h) and bitonic_sort of float32<8>. *)
From Verif Require Export Model.Floats Model.Bitonic.

(** MINPS/PD, MAXPS/PD: the second operand unless the first one is strictly smaller (larger) *)
Definition mm_fmin (w x y : Z) : Z := if f_lt w x y then x else y.
Definition mm_fmax (w x y : Z) : Z := if f_lt w y x then x else y.
(** null/math.h:227-245: a <= b ? a : b, a >= b ? a : b *)
Definition null_fmin (w x y : Z) : Z := if f_le w x y then x else y.
Definition null_fmax (w x y : Z) : Z := if f_le w y x then x else y.
(** FMIN/FMAX of NEON, vminfp/vmaxfp: -0 is smaller than +0; a NaN operand gives a NaN (which
    one is not modelled) *)
Definition hw_fmin (w x y : Z) : Z :=
  if f_unord w x y then f_qnan w
  else if f_lt w x y then x else if f_lt w y x then y else if f_neg w x then x else y.
Definition hw_fmax (w x y : Z) : Z :=
  if f_unord w x y then f_qnan w
  else if f_lt w y x then x else if f_lt w x y then y else if f_neg w x then y else x.
(** FMIN/FMAX of MSA: IEEE 754-2008 minNum/maxNum, a number beats a quiet NaN *)
Definition msa_fmin (w x y : Z) : Z := if f_nan w x then y else if f_nan w y then x else hw_fmin w x y.
Definition msa_fmax (w x y : Z) : Z := if f_nan w x then y else if f_nan w y then x else hw_fmax w x y.

(** f_min.h: f32 26-61, f64 66-101; f_max.h: same lines.  The vector units that flush denormals
    flush the operands. *)
Definition fminmax (nul x86 hw msa : Z -> Z -> Z -> Z) (A : arch) (d : bool) (s : rsz) (a b : Z) : res Z :=
  let w := fw d in
  let z := fz (ftz A d) w in
  let x R := Ok (v2 w R (x86 w) a b) in
  let h := Ok (v2 w 128 (fun x y => hw w (z x) (z y)) a b) in
  fl_sizes A s (fl_ladder A d (Ok (v2 w 128 (nul w) a b)) (x 128) h h (Ok (v2 w 128 (msa w) a b))) (x 256) (x 512).
Definition i_fmin := fminmax null_fmin mm_fmin hw_fmin msa_fmin.
Definition i_fmax := fminmax null_fmax mm_fmax hw_fmax msa_fmax.
(** core/f_min.h:37-66, core/f_max.h *)
Definition min_f A d s := vec_impl2 (i_fmin A d s).
Definition max_f A d s := vec_impl2 (i_fmax A d s).
(** core/f_clamp.h:32-41 *)
Definition clamp_f (A : arch) (d : bool) (s : rsz) (v lo hi : vec) : res vec :=
  let* m := min_f A d s v hi in max_f A d s m lo.
(** core/i_clamp.h:32-78 *)
Definition clamp_i (A : arch) (sg : bool) (w : ew) (s : rsz) (v lo hi : vec) : res vec :=
  let* m := min A sg w s v hi in max A sg w s m lo.

(** bitonic_sort.h on float32<8>: one 256-bit register with AVX, else two 128-bit registers
    (types/float32x8.h) *)
Definition sf32x8 (A : arch) : rsz := if use_avx A then R256 else R128.
Definition fsort_asc A : vec -> res vec :=
  let s := sf32x8 A in
  bsort_asc (min_f A false s) (max_f A false s) (permute4 A F32 s) (shuffle4x2 A F32 s) (shuffle1_128 s).
Definition fsort_dec A : vec -> res vec :=
  let s := sf32x8 A in
  bsort_dec (min_f A false s) (max_f A false s) (permute4 A F32 s) (shuffle4x2 A F32 s) (shuffle1_128 s).
Definition fsort2_asc A : vec -> vec -> res (vec * vec) :=
  let s := sf32x8 A in
  bsort2_asc (min_f A false s) (max_f A false s) (permute4 A F32 s) (shuffle4x2 A F32 s) (shuffle1_128 s).
Definition fsort2_dec A : vec -> vec -> res (vec * vec) :=
  let s := sf32x8 A in
  bsort2_dec (min_f A false s) (max_f A false s) (permute4 A F32 s) (shuffle4x2 A F32 s) (shuffle1_128 s).
