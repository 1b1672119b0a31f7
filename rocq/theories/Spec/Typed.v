(** Vector types of the API and conversions between them.  Mentions no library code. *)
From Verif Require Export Spec.Lanewise.

(** A vector of w-bit integers with T bits in all (intN<T/w> in the API; T is a power of
    two not below 128) is kept in the largest registers that exist for that element width
    and are not larger than the vector. *)
Definition vreg (A : arch) (w T : Z) : rsz :=
  if T <=? 128 then R128
  else match fast_int A w with
       | R128 => R128
       | R256 => R256
       | R512 => if T <=? 256 then R256 else R512
       end.
Definition vsize (T : Z) : Prop := exists k : nat, T = 128 * 2 ^ Z.of_nat k.
(** [v] holds a value of the type intw<T/w> *)
Definition typed (A : arch) (w T : Z) (v : vec) : Prop :=
  wfv (vreg A w T) v /\ Z.of_nat (length v) * rbits (vreg A w T) = T.
(** its lanes *)
Definition tlanes (A : arch) (w T : Z) (v : vec) : list Z := lanes w (vreg A w T) v.

(** the same for vectors of floating-point numbers *)
Definition vregf (A : arch) (T : Z) : rsz :=
  if T <=? 128 then R128
  else match fast_flt A with
       | R128 => R128
       | R256 => R256
       | R512 => if T <=? 256 then R256 else R512
       end.

(** [op] splits every vector of T bits (kept in [rs T] registers) in two halves, the first
    half first; [op] joins two vectors of T bits. *)
Definition splits (w T : Z) (rs : Z -> rsz) (op : vec -> res (vec * vec)) : Prop :=
  forall va, wfv (rs T) va -> Z.of_nat (length va) * rbits (rs T) = T ->
  exists v1 v2, op va = Ok (v1, v2) /\
    (wfv (rs (T / 2)) v1 /\ Z.of_nat (length v1) * rbits (rs (T / 2)) = T / 2) /\
    (wfv (rs (T / 2)) v2 /\ Z.of_nat (length v2) * rbits (rs (T / 2)) = T / 2) /\
    lanes w (rs T) va = lanes w (rs (T / 2)) v1 ++ lanes w (rs (T / 2)) v2.
Definition joins (w T : Z) (rs : Z -> rsz) (op : vec -> vec -> res vec) : Prop :=
  forall va vb, wfv (rs T) va -> Z.of_nat (length va) * rbits (rs T) = T ->
  wfv (rs T) vb -> Z.of_nat (length vb) * rbits (rs T) = T ->
  exists vr, op va vb = Ok vr /\
    (wfv (rs (2 * T)) vr /\ Z.of_nat (length vr) * rbits (rs (2 * T)) = 2 * T) /\
    lanes w (rs (2 * T)) vr = lanes w (rs T) va ++ lanes w (rs T) vb.

(** [op] converts every vector of w-bit lanes of T bits in all to the vector with the same
    number of w'-bit lanes, lane by lane with [f]. *)
Definition converts (A : arch) (w w' T : Z) (op : vec -> res vec) (f : Z -> Z) : Prop :=
  forall va, typed A w T va ->
  exists vr, op va = Ok vr /\ typed A w' (T * w' / w) vr /\
    tlanes A w' (T * w' / w) vr = map f (tlanes A w T va).

(** sign- or zero-extension of a w-bit pattern to w' bits; truncation to w' bits *)
Definition s_extend (sg : bool) (w w' x : Z) : Z := if sg then (sgn w x) mod 2 ^ w' else x.
Definition s_truncate (w' x : Z) : Z := x mod 2 ^ w'.

(** [op] combines two vectors of w-bit lanes of T bits each into a vector with the same
    number of w'-bit lanes, lane by lane with [f]. *)
Definition converts2 (A : arch) (w w' T : Z) (op : vec -> vec -> res vec) (f : Z -> Z -> Z) : Prop :=
  forall va vb, typed A w T va -> typed A w T vb ->
  exists vr, op va vb = Ok vr /\ typed A w' (T * w' / w) vr /\
    tlanes A w' (T * w' / w) vr = zipw f (tlanes A w T va) (tlanes A w T vb).
(** the full 2w-bit product of two w-bit numbers *)
Definition s_mull (sg : bool) (w x y : Z) : Z :=
  if sg then (sgn w x * sgn w y) mod 2 ^ (2 * w) else x * y.
