(** Sortedness, for the sorting functions.  Mentions no library code. *)
From Verif Require Export Spec.Lanewise.
From Coq Require Export Sorting.Permutation Sorting.Sorted.

(** [out] is [inp] rearranged so that the keys increase (decrease) from lane 0 upwards. *)
Definition sorts_asc (key : Z -> Z) (inp out : list Z) : Prop :=
  Permutation inp out /\ StronglySorted Z.le (map key out).
Definition sorts_dec (key : Z -> Z) (inp out : list Z) : Prop :=
  Permutation inp out /\ StronglySorted Z.ge (map key out).
(** the value of a 32-bit pattern *)
Definition value32 (sg : bool) (x : Z) : Z := if sg then sgn 32 x else x.
