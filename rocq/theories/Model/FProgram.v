(** Running a program of Spec/FProgram.v by calling the library on vectors: each operator is
    the public function of that name (simdpp/core/f_{add,sub,mul,div,min,max,sqrt,neg,abs,sign,...}.h,
    core/{bit_and,bit_not,blend,cast,to_float32,make_float}.h and those of Model/Program.v). *)
From Verif Require Export Spec.FProgram Model.Program Model.FArith Model.FMinMax Model.FConv Model.Cast Model.Log2.

(** make_const.h:100-133: float64 vectors, one element *)
Definition i_make_double (A : arch) (s : rsz) (c : Z) : res Z :=
  match s with
  | R128 =>
      if use_sse2 A then Ok (mm_set 64 128 (fun _ => c))
      else if use_neon64 A then Ok (vld1q 64 (fun _ => c))
      else if use_vsx206 A then Ok (vec_lit 64 (fun _ => c))
      else if use_msa A then Ok (msa_lit 64 (fun _ => c))
      else if use_null A || use_neon A || use_altivec A then Ok (null_make_vec 64 128 (fun _ => c)) else UB
  | R256 => if use_avx A then Ok (mm_set 64 256 (fun _ => c)) else NotImpl
  | R512 => if use_avx512f A then Ok (mm_set 64 512 (fun _ => c)) else NotImpl
  end.
(** make_const.h:494-503 *)
Fixpoint make_double (A : arch) (s : rsz) (c : Z) (n : nat) : res vec :=
  match n with
  | O => Ok []
  | S n => let* r := i_make_double A s c in let* rs := make_double A s c n in Ok (r :: rs)
  end.

Definition frun_u (est : Z -> Z) (A : arch) (d : bool) (s : rsz) (o : fuop) (v : vec) : res vec :=
  match o with
  | FNeg => neg_f A d s v
  | FAbs => abs_f A d s v
  | FSign => sign_f A d s v
  | FNot => bit_not_f A d s v
  | FSqrt => sqrt_f est A d s v
  end.
Definition frun_b (est : Z -> Z) (A : arch) (d : bool) (s : rsz) (o : fbop) (a b : vec) : res vec :=
  match o with
  | FAdd => add_f A d s a b
  | FSub => sub_f A d s a b
  | FMul => mul_f A d s a b
  | FDiv => div_f est A d s a b
  | FMin => min_f A d s a b
  | FMax => max_f A d s a b
  | FAnd => bit_and_f A d s a b
  | FOr => bit_or_f A d s a b
  | FXor => bit_xor_f A d s a b
  | FAndnot => bit_andnot_f A d s a b
  | FCopysign => copysign_f A d s a b
  end.
Definition frun_c (A : arch) (d : bool) (s : rsz) (o : fcop) (a b : vec) : res vec :=
  match o with
  | FEq => cmp_eq_f A d s a b
  | FNeq => cmp_neq_f A d s a b
  | FLt => cmp_lt_f A d s a b
  | FLe => cmp_le_f A d s a b
  | FGt => cmp_gt_f A d s a b
  | FGe => cmp_ge_f A d s a b
  | FIsNan2 => isnan2_f A d s a b
  end.
Definition frun_k (A : arch) (d : bool) (s : rsz) (o : kop) (a b : vec) : res vec :=
  match o with
  | KAnd => bit_and_f_mm A d s a b
  | KOr => bit_or_f_mm A d s a b
  | KXor => bit_xor_f_mm A d s a b
  | KAndnot => bit_andnot_f_mm A d s a b
  end.
(** T: size of the vectors in bits; the float vectors live in registers of size sF and the
    integer vectors in registers of size sI (different on AVX without AVX2). *)
Fixpoint frun (est : Z -> Z) (A : arch) (d : bool) (T : Z) (e : fexp) (fe ie : nat -> vec) : res vec :=
  let sF := vregf A T in
  match e with
  | FVar k => Ok (fe k)
  | FConst c => (if d then make_double else make_float) A sF c (Z.to_nat (T / rbits sF))
  | FUn o e => let* v := frun est A d T e fe ie in frun_u est A d sF o v
  | FBin o e1 e2 => let* a := frun est A d T e1 fe ie in let* b := frun est A d T e2 fe ie in frun_b est A d sF o a b
  | FBlend on off m =>
      let* a := frun est A d T on fe ie in let* b := frun est A d T off fe ie in let* k := frun_m est A d T m fe ie in
      blend_f_m A d sF a b k
  | FMasked e m => let* a := frun est A d T e fe ie in let* k := frun_m est A d T m fe ie in bit_and_f_vm A d sF a k
  | FOfMask m => let* k := frun_m est A d T m fe ie in unmask_f_v A d sF k
  | FBits i => let* a := irun est A d T i fe ie in bit_cast A (TInt (few d)) TFlt T a
  | FOfInt i => let* a := irun est A d T i fe ie in if d then NotImpl else to_float32_i A T a
  end
with frun_m (est : Z -> Z) (A : arch) (d : bool) (T : Z) (m : fmexp) (fe ie : nat -> vec) : res vec :=
  let sF := vregf A T in
  match m with
  | FCmp o e1 e2 => let* a := frun est A d T e1 fe ie in let* b := frun est A d T e2 fe ie in frun_c A d sF o a b
  | FIsNan e => let* a := frun est A d T e fe ie in isnan_f A d sF a
  | FIsFinite e => let* a := frun est A d T e fe ie in isfinite_f A d sF a
  | FMBin o m1 m2 => let* a := frun_m est A d T m1 fe ie in let* b := frun_m est A d T m2 fe ie in frun_k A d sF o a b
  | FMNot m => let* a := frun_m est A d T m fe ie in bit_not_f_m A d sF a
  end
with irun (est : Z -> Z) (A : arch) (d : bool) (T : Z) (e : iexp) (fe ie : nat -> vec) : res vec :=
  let w := few d in let s := vreg A (wb w) T in
  match e with
  | IVar k => Ok (ie k)
  | IConst c => make_const A w s [c] (vlen A (wb w) T)
  | IUn o e => let* v := irun est A d T e fe ie in run_u A w s o v
  | IBin o e1 e2 => let* a := irun est A d T e1 fe ie in let* b := irun est A d T e2 fe ie in run_b A w s o a b
  | IBlend on off m =>
      let* a := irun est A d T on fe ie in let* b := irun est A d T off fe ie in let* k := irun_m est A d T m fe ie in
      blend_m A w s a b k
  | IBits e => let* a := frun est A d T e fe ie in bit_cast A TFlt (TInt (few d)) T a
  end
with irun_m (est : Z -> Z) (A : arch) (d : bool) (T : Z) (m : imexp) (fe ie : nat -> vec) : res vec :=
  let w := few d in let s := vreg A (wb w) T in
  match m with
  | ICmp o e1 e2 => let* a := irun est A d T e1 fe ie in let* b := irun est A d T e2 fe ie in run_c A w s o a b
  | IMBin o m1 m2 => let* a := irun_m est A d T m1 fe ie in let* b := irun_m est A d T m2 fe ie in run_k A w s o a b
  | IMNot m => let* a := irun_m est A d T m fe ie in bit_not_m A w s a
  end.
