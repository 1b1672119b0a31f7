(** Floating-point minimum, maximum and clamping.  Mentions no library code. *)
From Verif Require Export Spec.Lanewise Spec.Floats Spec.Sorted.

(** For numbers, r is the smaller (larger) of the two operands; for two zeros either of them,
    and nothing is said about NaN operands (as documented). *)
Definition chooses_min (w x y r : Z) : Prop :=
  f_nan w x = false -> f_nan w y = false ->
  (r = x \/ r = y) /\ f_val w r = Z.min (f_val w x) (f_val w y).
Definition chooses_max (w x y r : Z) : Prop :=
  f_nan w x = false -> f_nan w y = false ->
  (r = x \/ r = y) /\ f_val w r = Z.max (f_val w x) (f_val w y).
(** std::clamp, where lo <= hi *)
Definition chooses_clamp (w v lo hi r : Z) : Prop :=
  f_nan w v = false -> f_nan w lo = false -> f_nan w hi = false -> f_val w lo <= f_val w hi ->
  (r = v \/ r = lo \/ r = hi) /\
  f_val w r = (if f_val w v <? f_val w lo then f_val w lo else if f_val w hi <? f_val w v then f_val w hi else f_val w v).
(** [op] applies one function to every pair (triple) of lanes, and that function satisfies P. *)
Definition picks2 (w : Z) (s : rsz) (op : vec -> vec -> res vec) (P : Z -> Z -> Z -> Prop) : Prop :=
  exists f, computes2 w s op f /\ forall x y, 0 <= x < 2 ^ w -> 0 <= y < 2 ^ w -> P x y (f x y).
Definition picks3 (w : Z) (s : rsz) (op : vec -> vec -> vec -> res vec) (P : Z -> Z -> Z -> Z -> Prop) : Prop :=
  exists f, computes3 w s op f /\
    forall x y z, 0 <= x < 2 ^ w -> 0 <= y < 2 ^ w -> 0 <= z < 2 ^ w -> P x y z (f x y z).
(** The values of [out] are those of [inp] in increasing (decreasing) order. *)
Definition sorts_val_asc (val : Z -> Z) (inp out : list Z) : Prop :=
  Permutation (map val inp) (map val out) /\ StronglySorted Z.le (map val out).
Definition sorts_val_dec (val : Z -> Z) (inp out : list Z) : Prop :=
  Permutation (map val inp) (map val out) /\ StronglySorted Z.ge (map val out).
(** std::clamp on integers, [le]: the order of the element type *)
Definition std_clamp (val : Z -> Z) (v lo hi : Z) : Z :=
  if val v <? val lo then lo else if val hi <? val v then hi else v.
