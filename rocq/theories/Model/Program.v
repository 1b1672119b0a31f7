(** Running a program of Spec/Program.v by calling the library on vectors (each operator is
    the public function of that name: simdpp/core/{i_add,i_sub,i_mul,bit_and,...}.h). *)
From Verif Require Export Spec.Program Model.Arith Model.BitApi Model.Shift Model.MinMax Model.Cmp Model.Blend Model.Mul Model.SetSplat.

Definition run_u (A : arch) (w : ew) (s : rsz) (o : uop) (v : vec) : res vec :=
  match o with
  | UNot => bit_not A w s v
  | UShl c => shift_l A w s v c
  | UShr sg c => shift_r A sg w s v c
  end.
Definition run_b (A : arch) (w : ew) (s : rsz) (o : bop) (a b : vec) : res vec :=
  match o with
  | BAdd => add A w s a b
  | BSub => sub A w s a b
  | BMul => mul_lo A w s a b
  | BAnd => bit_and A w s a b
  | BOr => bit_or A w s a b
  | BXor => bit_xor A w s a b
  | BAndnot => bit_andnot A w s a b
  | BMin sg => min A sg w s a b
  | BMax sg => max A sg w s a b
  | BAvg sg => avg A sg w s a b
  | BAvgTrunc sg => avg_trunc A sg w s a b
  | BAddSat sg => if sg then iadd_sat A w s a b else uadd_sat A w s a b
  | BSubSat sg => if sg then isub_sat A w s a b else usub_sat A w s a b
  end.
Definition run_c (A : arch) (w : ew) (s : rsz) (o : cop) (a b : vec) : res vec :=
  match o with
  | CEq => cmp_eq A w s a b
  | CNeq => cmp_neq A w s a b
  | CLt sg => cmp_lt A sg w s a b
  | CLe sg => cmp_le A sg w s a b
  | CGt sg => cmp_gt A sg w s a b
  | CGe sg => cmp_ge A sg w s a b
  end.
Definition run_k (A : arch) (w : ew) (s : rsz) (o : kop) (a b : vec) : res vec :=
  match o with
  | KAnd => bit_and_mm A w s a b
  | KOr => bit_or_mm A w s a b
  | KXor => bit_xor_mm A w s a b
  | KAndnot => bit_andnot_mm A w s a b
  end.
(** [n] registers per vector *)
Fixpoint run (A : arch) (w : ew) (s : rsz) (n : nat) (e : vexp) (env : nat -> vec) : res vec :=
  match e with
  | EVar k => Ok (env k)
  | EConst c => make_const A w s [c] n
  | EUn o e => let* v := run A w s n e env in run_u A w s o v
  | EBin o e1 e2 => let* a := run A w s n e1 env in let* b := run A w s n e2 env in run_b A w s o a b
  | EBlend on off m =>
      let* a := run A w s n on env in let* b := run A w s n off env in let* k := run_m A w s n m env in blend_m A w s a b k
  end
with run_m (A : arch) (w : ew) (s : rsz) (n : nat) (m : mexp) (env : nat -> vec) : res vec :=
  match m with
  | MCmp o e1 e2 => let* a := run A w s n e1 env in let* b := run A w s n e2 env in run_c A w s o a b
  | MBin o m1 m2 => let* a := run_m A w s n m1 env in let* b := run_m A w s n m2 env in run_k A w s o a b
  | MNot m => let* a := run_m A w s n m env in bit_not_m A w s a
  end.
(** a vector intw<T/w> in configuration A *)
Definition run_program (A : arch) (w : ew) (T : Z) (e : vexp) (env : nat -> vec) : res vec :=
  run A w (vreg A (wb w) T) (vlen A (wb w) T) e env.
