(** load_packedN / store_packedN as the user sees them: N vectors whose elements are interleaved
    in memory.  Mentions no library code. *)
From Verif Require Export Spec.Mem.

(** elements j, N+j, 2N+j, ... of a list *)
Definition every_nth (N j : nat) (l : list Z) : list Z :=
  map (fun i => nth (N * i + j) l 0) (seq 0 (length l / N)).

(** [op p m] de-interleaves the array at p into N vectors of k registers each. *)
Definition loads_packed (w : Z) (s : rsz) (k N : nat) (op : Z -> mem -> res (list vec)) : Prop :=
  forall p m, p mod (rbits s / 8) = 0 -> accessible m p (Z.of_nat N * vbytes s k) ->
  exists vs, op p m = Ok vs /\ length vs = N /\
    forall j, (j < N)%nat -> wfv s (nth j vs []) /\ length (nth j vs []) = k /\
      lanes w s (nth j vs []) = every_nth N j (array w p (N * vlen w s k) m).
(** [op p vs m] interleaves N vectors of k registers into the array at p, an address aligned to
    [al] bytes. *)
Definition stores_packed (w : Z) (s : rsz) (k N : nat) (al : Z) (op : Z -> list vec -> mem -> res mem) : Prop :=
  forall p vs m, length vs = N -> Forall (fun v => wfv s v /\ length v = k) vs ->
  p mod al = 0 -> accessible m p (Z.of_nat N * vbytes s k) ->
  exists m', op p vs m = Ok m' /\
    (forall j, (j < N)%nat -> every_nth N j (array w p (N * vlen w s k) m') = lanes w s (nth j vs [])) /\
    only_changes p (Z.of_nat N * vbytes s k) m m'.
