(** What it means for a vector operation to rearrange lanes.  Mentions no library code. *)
From Verif Require Export Spec.Lanewise Base.Shuf.

(** Lane i of the result when the vector is cut into groups of n lanes and lane k of each
    group is described by [L k]: zero, or lane j of the same group of argument m
    ([fromA j]: of the first argument, [fromB j]: of the second). *)
Definition pick (n : Z) (L : Z -> src) (args : list (list Z)) (i : Z) : Z :=
  match L (i mod n) with
  | None => 0
  | Some (m, j) => nth (Z.to_nat (n * (i / n) + j)) (nth m args []) 0
  end.
Definition grouped (n : Z) (L : Z -> src) (args : list (list Z)) : list Z :=
  map (pick n L args) (zrange (Z.of_nat (length (hd [] args)))).

Definition computesS1 (w : Z) (s : rsz) (n : Z) (op : vec -> res vec) (L : Z -> src) : Prop :=
  forall va, wfv s va ->
  exists vr, op va = Ok vr /\ wfv s vr /\ length vr = length va /\
    lanes w s vr = grouped n L [lanes w s va].
Definition computesS2 (w : Z) (s : rsz) (n : Z) (op : vec -> vec -> res vec) (L : Z -> src) : Prop :=
  forall va vb, wfv s va -> wfv s vb -> length va = length vb ->
  exists vr, op va vb = Ok vr /\ wfv s vr /\ length vr = length va /\
    lanes w s vr = grouped n L [lanes w s va; lanes w s vb].

(** The selections of the properties; n is the number of lanes of a group. *)
Definition p_permute2 (s0 s1 k : Z) : src := fromA (if k =? 0 then s0 else s1).
Definition p_permute4 (s0 s1 s2 s3 k : Z) : src :=
  fromA (if k =? 0 then s0 else if k =? 1 then s1 else if k =? 2 then s2 else s3).
Definition p_zip_lo (n k : Z) : src := if Z.even k then fromA (k / 2) else fromB (k / 2).
Definition p_zip_hi (n k : Z) : src := if Z.even k then fromA (n / 2 + k / 2) else fromB (n / 2 + k / 2).
Definition p_unzip_lo (n k : Z) : src := if k <? n / 2 then fromA (2 * k) else fromB (2 * (k - n / 2)).
Definition p_unzip_hi (n k : Z) : src := if k <? n / 2 then fromA (2 * k + 1) else fromB (2 * (k - n / 2) + 1).
Definition p_move_l (n sh k : Z) : src := if k + sh <? n then fromA (k + sh) else zlane.
Definition p_move_r (n sh k : Z) : src := if sh <=? k then fromA (k - sh) else zlane.
Definition p_align (n sh k : Z) : src := if k + sh <? n then fromA (k + sh) else fromB (k + sh - n).
Definition p_splat (i k : Z) : src := fromA i.
(** lane s of the concatenation of a group of a and a group of b *)
Definition p_cat (n s : Z) : src := if s <? n then fromA s else fromB (s - n).
Definition p_shuffle2x2 (s0 s1 k : Z) : src := p_cat 2 (if k =? 0 then s0 else s1).
Definition p_shuffle4x2 (s0 s1 s2 s3 k : Z) : src :=
  p_cat 4 (if k =? 0 then s0 else if k =? 1 then s1 else if k =? 2 then s2 else s3).
Definition p_shuffle1 (s0 s1 k : Z) : src := if k =? 0 then fromA s0 else fromB s1.
Definition p_shuffle2 (a0 a1 b0 b1 k : Z) : src :=
  if k =? 0 then fromA a0 else if k =? 1 then fromA a1 else if k =? 2 then fromB b0 else fromB b1.
(** transposition: lane k of row i is lane i of row k *)
Definition p_transpose (i k : Z) : src := Some (Z.to_nat k, i).
