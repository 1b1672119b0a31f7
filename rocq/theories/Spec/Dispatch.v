(** What run-time dispatch has to achieve.  A supplied version has a set of required
    instruction sets (a bit set) and possibly a function; mentions no library code. *)
From Coq Require Export ZArith List Bool Lia Permutation Sorted.
Export ListNotations.
Open Scope Z_scope.

Record fnver (F : Type) := mkFn { needed : Z; fptr : option F }.
Arguments mkFn {F}. Arguments needed {F}. Arguments fptr {F}.

Definition subset (a b : Z) : Prop := forall i, 0 <= i -> Z.testbit a i = true -> Z.testbit b i = true.
(** [v] can be executed on a CPU offering [arch] *)
Definition runnable {F} (arch : Z) (v : fnver F) : Prop := fptr v <> None /\ subset (needed v) arch.
(** [v] is a best choice among [vs]: no runnable version is ranked higher by the
    numeric value of its requirements *)
Definition best {F} (arch : Z) (vs : list (fnver F)) (v : fnver F) : Prop :=
  In v vs /\ runnable arch v /\ forall u, In u vs -> runnable arch u -> needed u <= needed v.
