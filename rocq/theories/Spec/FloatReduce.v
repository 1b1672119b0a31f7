(** Horizontal reductions of floating-point vectors.  Mentions no library code. *)
From Verif Require Export Spec.FloatArith Spec.FloatOrd Spec.Reduce.

(** [combined P l r]: the elements of l, each used exactly once and in any order, are combined
    pairwise into r; every step turns two intermediate results x, y into some z with P x y z. *)
Inductive combined (P : Z -> Z -> Z -> Prop) : list Z -> Z -> Prop :=
  | c_one x : combined P [x] x
  | c_step l1 l2 x y r : combined P l1 x -> combined P l2 y -> P x y r -> combined P (l1 ++ l2) r
  | c_any l l' r : Permutation l l' -> combined P l r -> combined P l' r.

(** the float with pattern x is the integer n *)
Definition is_int (w x n : Z) : Prop := f_finite w x = true /\ f_val w x = n * 2 ^ fulp w.
(** bounds of all partial sums, and of all partial products *)
Definition magnitude (l : list Z) : Z := total (map Z.abs l).
Definition factors (l : list Z) : Z := product (map (fun n => Z.max 1 (Z.abs n)) l).
