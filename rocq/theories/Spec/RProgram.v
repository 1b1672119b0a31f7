(** A program followed by a horizontal reduction.  (C38) *)
From Verif Require Export Spec.SProgram Spec.Reduce.

Inductive redop := ROr | RAnd | RMin (sg : bool) | RMax (sg : bool) | RAdd (sg : bool) | RPopcnt.
(** what the number r has to do with the lanes l *)
Definition red_val (w : Z) (o : redop) (l : list Z) (r : Z) : Prop :=
  match o with
  | ROr => s_reduce_or w l r
  | RAnd => s_reduce_and w l r
  | RMin sg => s_reduce_min sg w l r
  | RMax sg => s_reduce_max sg w l r
  | RAdd sg => s_reduce_add sg w w l r
  | RPopcnt => s_reduce_popcnt w l r
  end.
(** widths for which the reduction works on every instruction set *)
Definition red_fine (w : ew) (o : redop) : Prop :=
  match o with
  | RMin _ | RMax _ => w <> W64
  | RAdd _ => w = W32 \/ w = W64
  | _ => True
  end.
