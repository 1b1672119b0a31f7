(** Running a program of Spec/SProgram.v by calling the library on vectors: the operators of
    Model/Program.v, neg, abs, popcnt, mul_hi (simdpp/core/{i_neg,i_abs,i_popcnt,i_mul}.h) and the lane rearrangements of
    simdpp/core/{move_l,move_r,permute2,permute4,splat_n,zip_lo,zip_hi,unzip_lo,unzip_hi,align,shuffle1,shuffle2}.h. *)
From Verif Require Export Spec.SProgram Model.Program Model.ShufApi2 Model.Abs Model.Popcnt.

(** the integer vector type of a width *)
Definition iet (w : ew) : et := match w with W8 => I8 | W16 => I16 | W32 => I32 | W64 => I64 end.
Definition run_h1 (A : arch) (w : ew) (s : rsz) (o : shop1) (v : vec) : res vec :=
  match o with
  | HMoveL n => move_l A (iet w) s n v
  | HMoveR n => move_r A (iet w) s n v
  | HPermute2 s0 s1 => permute2 A (iet w) s s0 s1 v
  | HPermute4 s0 s1 s2 s3 => permute4 A (iet w) s s0 s1 s2 s3 v
  | HSplat n => splat_n A (iet w) s n v
  end.
Definition run_h2 (A : arch) (w : ew) (s : rsz) (o : shop2) (a b : vec) : res vec :=
  match o with
  | HZipLo => zip_lo A (iet w) s a b
  | HZipHi => zip_hi A (iet w) s a b
  | HUnzipLo => unzip_lo A (iet w) s a b
  | HUnzipHi => unzip_hi A (iet w) s a b
  | HAlign n => align A (iet w) s n a b
  | HShuffle1 s0 s1 => shuffle1 A (iet w) s s0 s1 a b
  | HShuffle2 a0 a1 b0 b1 => shuffle2 A (iet w) s a0 a1 b0 b1 a b
  end.
Definition run_x1 (A : arch) (w : ew) (s : rsz) (o : xop1) (v : vec) : res vec :=
  match o with XNeg => neg A w s v | XAbs => abs A w s v | XPopcnt => popcnt A w s v end.
(** [n] registers per vector *)
Fixpoint srun (A : arch) (w : ew) (s : rsz) (n : nat) (e : sexp) (env : nat -> vec) : res vec :=
  match e with
  | SVar k => Ok (env k)
  | SConst c => make_const A w s [c] n
  | SUn o e => let* v := srun A w s n e env in run_u A w s o v
  | SBin o e1 e2 => let* a := srun A w s n e1 env in let* b := srun A w s n e2 env in run_b A w s o a b
  | SBlend on off m =>
      let* a := srun A w s n on env in let* b := srun A w s n off env in let* k := srun_m A w s n m env in blend_m A w s a b k
  | SX1 o e => let* v := srun A w s n e env in run_x1 A w s o v
  | SMulHi sg e1 e2 => let* a := srun A w s n e1 env in let* b := srun A w s n e2 env in mul_hi A sg s a b
  | SSh1 o e => let* v := srun A w s n e env in run_h1 A w s o v
  | SSh2 o e1 e2 => let* a := srun A w s n e1 env in let* b := srun A w s n e2 env in run_h2 A w s o a b
  end
with srun_m (A : arch) (w : ew) (s : rsz) (n : nat) (m : smexp) (env : nat -> vec) : res vec :=
  match m with
  | SCmp o e1 e2 => let* a := srun A w s n e1 env in let* b := srun A w s n e2 env in run_c A w s o a b
  | SMBin o m1 m2 => let* a := srun_m A w s n m1 env in let* b := srun_m A w s n m2 env in run_k A w s o a b
  | SMNot m => let* a := srun_m A w s n m env in bit_not_m A w s a
  end.
(** a vector intw<T/w> in configuration A *)
Definition run_sprogram (A : arch) (w : ew) (T : Z) (e : sexp) (env : nat -> vec) : res vec :=
  srun A w (vreg A (wb w) T) (Convert.vlen A (wb w) T) e env.
