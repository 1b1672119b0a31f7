(** What it means for a vector operation to compute a given function of lanes.
    This file mentions no library code. *)
From Verif Require Export Base.Bits Base.Arch.

(** A vector value is the list of its native registers; its contents, as seen by
    the user, is the list of its lanes, as unsigned w-bit patterns, lane 0 first. *)
Definition vec := list Z.
Definition wfv (s : rsz) (v : vec) : Prop := Forall (reg (rbits s)) v.
Definition lanes (w : Z) (s : rsz) (v : vec) : list Z :=
  flat_map (elems w (nl w (rbits s))) v.

Fixpoint zipw {X Y Z'} (f : X -> Y -> Z') (l : list X) (m : list Y) : list Z' :=
  match l, m with x :: l, y :: m => f x y :: zipw f l m | _, _ => [] end.
Fixpoint zipw3 {X Y Z' W'} (f : X -> Y -> Z' -> W') (l : list X) (m : list Y) (n : list Z') : list W' :=
  match l, m, n with x :: l, y :: m, z :: n => f x y z :: zipw3 f l m n | _, _, _ => [] end.

(** [op] succeeds on all well-formed arguments and its result's lanes are [f] of the
    arguments' lanes, position by position. *)
Definition computes1 (w : Z) (s : rsz) (op : vec -> res vec) (f : Z -> Z) : Prop :=
  forall va, wfv s va ->
  exists vr, op va = Ok vr /\ wfv s vr /\ length vr = length va /\
    lanes w s vr = map f (lanes w s va).
Definition computes2 (w : Z) (s : rsz) (op : vec -> vec -> res vec) (f : Z -> Z -> Z) : Prop :=
  forall va vb, wfv s va -> wfv s vb -> length va = length vb ->
  exists vr, op va vb = Ok vr /\ wfv s vr /\ length vr = length va /\
    lanes w s vr = zipw f (lanes w s va) (lanes w s vb).
Definition computes3 (w : Z) (s : rsz) (op : vec -> vec -> vec -> res vec)
    (f : Z -> Z -> Z -> Z) : Prop :=
  forall va vb vc, wfv s va -> wfv s vb -> wfv s vc ->
  length va = length vb -> length va = length vc ->
  exists vr, op va vb vc = Ok vr /\ wfv s vr /\ length vr = length va /\
    lanes w s vr = zipw3 f (lanes w s va) (lanes w s vb) (lanes w s vc).

(** The same, for arguments all of whose lanes satisfy [P]. *)
Definition computes1_if (w : Z) (s : rsz) (P : Z -> Prop) (op : vec -> res vec) (f : Z -> Z) : Prop :=
  forall va, wfv s va -> Forall P (lanes w s va) ->
  exists vr, op va = Ok vr /\ wfv s vr /\ length vr = length va /\
    lanes w s vr = map f (lanes w s va).
Definition computes2_if (w : Z) (s : rsz) (P : Z -> Z -> Prop) (op : vec -> vec -> res vec)
    (f : Z -> Z -> Z) : Prop :=
  forall va vb, wfv s va -> wfv s vb -> length va = length vb ->
  Forall2 P (lanes w s va) (lanes w s vb) ->
  exists vr, op va vb = Ok vr /\ wfv s vr /\ length vr = length va /\
    lanes w s vr = zipw f (lanes w s va) (lanes w s vb).

(** Configurations in which 128-bit vectors of [w]-bit integers are processed by plain
    C++ loops: no SIMD at all, or 64-bit lanes on AltiVec before POWER8. *)
Definition scalar (A : arch) (w : ew) (s : rsz) : bool :=
  match s with
  | R128 => use_null A || match w with W64 => use_altivec A && negb (use_vsx207 A) | _ => false end
  | _ => false
  end.

(** Signed reading of a pattern, and back. *)
Definition clamp (lo hi x : Z) : Z := Z.max lo (Z.min hi x).

(** The lane functions of the properties. *)
Definition s_add w x y := (x + y) mod 2 ^ w.
Definition s_sub w x y := (x - y) mod 2 ^ w.
Definition s_neg w x := (- x) mod 2 ^ w.
Definition s_abs w x := Z.abs (sgn w x).
Definition s_add_sat_u w x y := clamp 0 (2 ^ w - 1) (x + y).
Definition s_sub_sat_u w x y := clamp 0 (2 ^ w - 1) (x - y).
Definition s_add_sat_s w x y :=
  (clamp (- 2 ^ (w - 1)) (2 ^ (w - 1) - 1) (sgn w x + sgn w y)) mod 2 ^ w.
Definition s_sub_sat_s w x y :=
  (clamp (- 2 ^ (w - 1)) (2 ^ (w - 1) - 1) (sgn w x - sgn w y)) mod 2 ^ w.
(** shifts: left (bits shifted out are lost), logical right, arithmetic right *)
Definition s_shl w c x := (x * 2 ^ c) mod 2 ^ w.
Definition s_shr_u (w : Z) c x := x / 2 ^ c.
Definition s_shr_s w c x := (sgn w x / 2 ^ c) mod 2 ^ w.
Definition s_mul_lo w x y := (x * y) mod 2 ^ w.
Definition s_mul_hi_u w x y := (x * y) / 2 ^ w.
Definition s_mul_hi_s w x y := ((sgn w x * sgn w y) / 2 ^ w) mod 2 ^ w.
Definition s_min_u x y := Z.min x y.
Definition s_max_u x y := Z.max x y.
Definition s_min_s w x y := (Z.min (sgn w x) (sgn w y)) mod 2 ^ w.
Definition s_max_s w x y := (Z.max (sgn w x) (sgn w y)) mod 2 ^ w.
Definition s_avg_u x y := (x + y + 1) / 2.
Definition s_avg_trunc_u x y := (x + y) / 2.
Definition s_avg_s w x y := ((sgn w x + sgn w y + 1) / 2) mod 2 ^ w.
Definition s_avg_trunc_s w x y := ((sgn w x + sgn w y) / 2) mod 2 ^ w.
