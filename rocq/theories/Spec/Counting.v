(** Specification of popcnt (C13). *)
From Verif Require Export Spec.Lanewise.
(** number of one bits among the low w bits of x *)
Definition s_popcnt (w x : Z) : Z :=
  fold_right Z.add 0 (map (fun i => Z.b2z (Z.testbit x (Z.of_nat i))) (seq 0 (Z.to_nat w))).
