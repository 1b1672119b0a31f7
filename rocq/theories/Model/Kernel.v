(** A kernel as a user writes it:
      intw<N> a = load(p0), b = load(p1); store(q, e(a, b));
    simdpp/core/{load,store}.h around the programs of Model/SProgram.v. *)
From Verif Require Export Spec.Kernel Model.SProgram Model.LoadStore.

Fixpoint load_list (A : arch) (e : et) (s : rsz) (n : nat) (ps : list Z) (m : mem) : res (list vec) :=
  match ps with
  | [] => Ok []
  | p :: ps => let* v := load A e s p n m in let* vs := load_list A e s n ps m in Ok (v :: vs)
  end.
Definition run_kernel (A : arch) (w : ew) (T : Z) (e : sexp) (ps : list Z) (q : Z) (m : mem) : res mem :=
  let s := vreg A (wb w) T in
  let* vs := load_list A (iet w) s (Convert.vlen A (wb w) T) ps m in
  let* r := run_sprogram A w T e (operand [] vs) in
  store A (iet w) s q r m.
