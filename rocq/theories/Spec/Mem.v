(** Memory as the user of load/store sees it.  Mentions no library code. *)
From Verif Require Export Spec.Lanewise.

(** A memory state: the byte (0 .. 255) at every address; [None] where nothing is mapped
    (touching such an address is undefined behaviour). *)
Definition mem := Z -> option Z.
Definition byte_at (m : mem) (q : Z) : Z := match m q with Some b => b | None => 0 end.
(** all n bytes from address p on may be accessed *)
Definition accessible (m : mem) (p n : Z) : Prop :=
  forall q, p <= q < p + n -> exists b, m q = Some b /\ 0 <= b < 256.
(** the number held, lowest byte first, in the k bytes at p *)
Fixpoint number (k : nat) (m : mem) (p : Z) : Z :=
  match k with O => 0 | S k => byte_at m p + 256 * number k m (p + 1) end.
(** the array of N w-bit elements at p *)
Definition array (w p : Z) (N : nat) (m : mem) : list Z :=
  map (fun i => number (Z.to_nat (w / 8)) m (p + Z.of_nat i * (w / 8))) (seq 0 N).
(** [m'] differs from [m] at most in the n bytes at p, which stay accessible *)
Definition only_changes (p n : Z) (m m' : mem) : Prop :=
  (forall q, q < p \/ p + n <= q -> m' q = m q) /\ accessible m' p n.

(** number of w-bit elements and of bytes in a vector of k registers of size s *)
Definition vlen (w : Z) (s : rsz) (k : nat) : nat := k * nl w (rbits s).
Definition vbytes (s : rsz) (k : nat) : Z := Z.of_nat k * (rbits s / 8).

(** [op p m] reads a vector of k registers from the array at p, whenever [pre] holds. *)
Definition loads (w : Z) (s : rsz) (k : nat) (pre : Z -> mem -> Prop) (op : Z -> mem -> res vec) : Prop :=
  forall p m, pre p m ->
  exists v, op p m = Ok v /\ wfv s v /\ length v = k /\ lanes w s v = array w p (vlen w s k) m.
(** [op p v m] replaces the array at p by [new lanes-of-v old-array] and touches no other
    byte. *)
Definition stores (w : Z) (s : rsz) (pre : Z -> nat -> mem -> Prop)
    (op : Z -> vec -> mem -> res mem) (new : list Z -> list Z -> list Z) : Prop :=
  forall p v m, wfv s v -> pre p (length v) m ->
  exists m', op p v m = Ok m' /\
    array w p (vlen w s (length v)) m' = new (lanes w s v) (array w p (vlen w s (length v)) m) /\
    only_changes p (vbytes s (length v)) m m'.

(** the usual precondition: p aligned to a bytes, the whole array accessible *)
Definition aligned_array (a : Z) (s : rsz) (p : Z) (k : nat) (m : mem) : Prop :=
  p mod a = 0 /\ accessible m p (vbytes s k).
(** ... and, for instruction sets that only have aligned 16-byte accesses, the whole 16-byte
    blocks that contain the first and the last byte of the array are accessible *)
Definition blocks_around (s : rsz) (p : Z) (k : nat) (m : mem) : Prop :=
  accessible m (p - p mod 16) (p + vbytes s k - (p - p mod 16) + (- (p + vbytes s k)) mod 16).

(** what the stores do to the array *)
Definition new_all (l old : list Z) : list Z := l.
Definition new_first (n : nat) (l old : list Z) : list Z := firstn n l ++ skipn n old.
Definition new_last (n : nat) (l old : list Z) : list Z :=
  firstn (length l - n) old ++ skipn (length l - n) l.
Definition new_masked (bs : list bool) (l old : list Z) : list Z :=
  zipw3 (fun (b : bool) x y => if b then x else y) bs l old.
