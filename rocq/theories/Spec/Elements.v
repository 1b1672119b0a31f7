(** One element of a vector.  Mentions no library code. *)
From Verif Require Export Spec.Lanewise.
(** the value of an element with the given bits *)
Definition value (sg : bool) (w x : Z) : Z := if sg then sgn w x else x.
(** the list with element i replaced *)
Definition replaced (i : nat) (x : Z) (l : list Z) : list Z := firstn i l ++ x :: skipn (S i) l.
(** [op id v] returns the value of element id of every vector v, for every position id *)
Definition extracts (sg : bool) (w : Z) (s : rsz) (op : Z -> vec -> res Z) : Prop :=
  forall id v, wfv s v -> 0 <= id < Z.of_nat (length (lanes w s v)) ->
  op id v = Ok (value sg w (nth (Z.to_nat id) (lanes w s v) 0)).
(** [op id v x] is v with element id replaced by x (modulo 2^w), the others unchanged *)
Definition inserts (w : Z) (s : rsz) (op : Z -> vec -> Z -> res vec) : Prop :=
  forall id v x, wfv s v -> 0 <= id < Z.of_nat (length (lanes w s v)) ->
  exists v', op id v x = Ok v' /\ wfv s v' /\ length v' = length v /\
    lanes w s v' = replaced (Z.to_nat id) (x mod 2 ^ w) (lanes w s v).
(** [op v] calls a function once for every element, in order; the result is the list of the
    arguments *)
Definition visits (sg : bool) (w : Z) (s : rsz) (op : vec -> res (list Z)) : Prop :=
  forall v, wfv s v -> op v = Ok (map (value sg w) (lanes w s v)).
