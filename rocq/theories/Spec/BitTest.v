(** Specification of test_bits_any and extract_bits (C35). *)
From Verif Require Export Spec.Lanewise.

(** op answers whether some bit of some lane is set *)
Definition tests_any (w : Z) (s : rsz) (op : vec -> res bool) : Prop :=
  forall va, wfv s va -> va <> [] ->
  exists b, op va = Ok b /\ (b = true <-> exists x i, In x (lanes w s va) /\ 0 <= i < w /\ Z.testbit x i = true).

(** r is the n-bit number whose bit i is f i *)
Definition bits_of (n : Z) (f : Z -> bool) (r : Z) : Prop :=
  0 <= r < 2 ^ n /\ forall i, 0 <= i < n -> Z.testbit r i = f i.
(** lane i of the list *)
Definition lane_no (l : list Z) (i : Z) : Z := nth (Z.to_nat i) l 0.
