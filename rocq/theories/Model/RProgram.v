(** Running a program of Spec/SProgram.v and reducing its result:
    simdpp/core/{i_reduce_or,i_reduce_and,i_reduce_min,i_reduce_max,i_reduce_add,i_reduce_popcnt}.h. *)
From Verif Require Export Spec.RProgram Model.SProgram Model.Reduce Model.ReduceAdd Model.ReducePop.

Definition run_red (A : arch) (fp : Z) (w : ew) (T : Z) (o : redop) (v : vec) : res Z :=
  match o with
  | ROr => reduce_or A fp w (vreg A (wb w) T) v
  | RAnd => reduce_and A fp w (vreg A (wb w) T) v
  | RMin sg => reduce_min A fp sg w (vreg A (wb w) T) v
  | RMax sg => reduce_max A fp sg w (vreg A (wb w) T) v
  | RAdd sg => reduce_add A fp sg w (vreg A (wb w) T) v
  | RPopcnt => reduce_popcnt A fp w T v
  end.
(** fp: the address of the frame the reduction spills to *)
Definition run_rprogram (A : arch) (fp : Z) (w : ew) (T : Z) (o : redop) (e : sexp) (env : nat -> vec) : res Z :=
  let* v := run_sprogram A w T e env in run_red A fp w T o v.
