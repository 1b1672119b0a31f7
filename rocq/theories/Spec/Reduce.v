(** Specification of the horizontal reductions (C14). *)
From Verif Require Export Spec.Counting Spec.Elements.

(** op returns F of the list of all the lanes of its argument, whatever its length *)
Definition reduces (w : Z) (s : rsz) (op : vec -> res Z) (F : list Z -> Z -> Prop) : Prop :=
  forall va, wfv s va -> va <> [] -> exists r, op va = Ok r /\ F (lanes w s va) r.

Definition total (l : list Z) : Z := fold_right Z.add 0 l.
Definition product (l : list Z) : Z := fold_right Z.mul 1 l.
(** m is the least (greatest) element of l *)
Definition least (l : list Z) (m : Z) : Prop := In m l /\ forall x, In x l -> m <= x.
Definition greatest (l : list Z) (m : Z) : Prop := In m l /\ forall x, In x l -> x <= m.

(** the sum (product) of the lanes, computed in W bits and returned as a [sg] integer *)
Definition s_reduce_add (sg : bool) (w W : Z) (l : list Z) (r : Z) : Prop :=
  r = value sg W (total (map (value sg w) l) mod 2 ^ W).
Definition s_reduce_mul (sg : bool) (w W : Z) (l : list Z) (r : Z) : Prop :=
  r = value sg W (product (map (value sg w) l) mod 2 ^ W).
Definition s_reduce_min (sg : bool) (w : Z) (l : list Z) (r : Z) : Prop := least (map (value sg w) l) r.
Definition s_reduce_max (sg : bool) (w : Z) (l : list Z) (r : Z) : Prop := greatest (map (value sg w) l) r.
(** bit i of the result is set iff it is set in some (every) lane *)
Definition s_reduce_or (w : Z) (l : list Z) (r : Z) : Prop :=
  0 <= r < 2 ^ w /\ forall i, 0 <= i < w -> (Z.testbit r i = true <-> exists x, In x l /\ Z.testbit x i = true).
Definition s_reduce_and (w : Z) (l : list Z) (r : Z) : Prop :=
  0 <= r < 2 ^ w /\ forall i, 0 <= i < w -> (Z.testbit r i = true <-> forall x, In x l -> Z.testbit x i = true).
(** the number of one bits of all the lanes together, as a uint32_t *)
Definition s_reduce_popcnt (w : Z) (l : list Z) (r : Z) : Prop := r = total (map (s_popcnt w) l) mod 2 ^ 32.
