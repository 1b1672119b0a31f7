(** Transposing rows of lanes block by block.  Mentions no library code. *)
From Verif Require Export Spec.Lanewise.

(** The n rows, each cut into groups of n lanes, hold one n x n matrix per group; row i of
    the result holds column i of every matrix.  All rows have the same length, a multiple of n. *)
Definition transposed (n : nat) (rows rows' : list (list Z)) : Prop :=
  length rows = n /\ length rows' = n /\
  exists m, Forall (fun r => length r = (n * m)%nat) rows /\ Forall (fun r => length r = (n * m)%nat) rows' /\
    forall g i j, (g < m)%nat -> (i < n)%nat -> (j < n)%nat ->
      nth (n * g + j) (nth i rows' []) 0 = nth (n * g + i) (nth j rows []) 0.
