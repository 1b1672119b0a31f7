(** core/aligned_allocator.h: the over-aligned allocator on top of operator new[]. *)
From Verif Require Export Base.Bits.
Open Scope Z_scope.

Section Alloc.
  (** sizeof(void* ) in bytes; std::size_t and std::uintptr_t have 8*ps bits *)
  Variable ps : Z.
  Definition wd : Z := 8 * ps.
  (** byte order of the machine *)
  Variable big_endian : bool.

  (** byte memory; storing and loading a pointer *)
  Definition mem := Z -> Z.
  Definition byte_at (i : Z) : Z := if big_endian then ps - 1 - i else i.
  Definition store_ptr (m : mem) (a v : Z) : mem :=
    fun x => if (a <=? x) && (x <? a + ps) then lane 8 (byte_at (x - a)) v else m x.
  Definition load_ptr (m : mem) (a : Z) : Z := mk 8 (Z.to_nat ps) (fun i => m (a + byte_at i)).

  (** aligned_allocator.h:57-60 max_size() *)
  Definition max_size (sz : Z) : Z := wrap wd (0 - 1) / sz.
  (** :94 *)
  Definition eff_align (A : Z) : Z := if A <? 2 * ps then 2 * ps else A.
  (** :96 the argument of new char[], computed in std::size_t *)
  Definition new_size (sz A n : Z) : Z := wrap wd (wrap wd (n * sz) + eff_align A).
  (** :97-98 *)
  Definition align_up (A pv : Z) : Z :=
    let al := eff_align A in Z.land (wrap wd (pv + al)) (Z.lxor (al - 1) (ones wd)).

  (** allocate(n), :77-104.  [heap size] is the pointer returned by new char[size]. *)
  Inductive outcome := Null | LengthError | Got (p : Z) (pv size : Z) (m : mem).
  Definition allocate (sz A n : Z) (heap : Z -> Z) (m : mem) : outcome :=
    if n =? 0 then Null
    else if max_size sz <? n then LengthError
    else
      let size := new_size sz A n in
      let pv := heap size in
      let p := align_up A pv in
      Got p pv size (store_ptr m (p - ps) pv).
  (** deallocate(p), :106-114: the pointer handed to delete[], None for a null p *)
  Definition deallocate (p : Z) (m : mem) : option Z :=
    if p =? 0 then None else Some (load_ptr m (p - ps)).

  (** ---- histories of a program using the allocator ---- *)
  (** a live allocation: the pointer the user got, its size in bytes, its alignment, and
      (ghost) the heap block it came from *)
  Record ent := mkEnt { e_ptr : Z; e_bytes : Z; e_al : Z; e_blk : Z; e_size : Z }.
  Record state := mkState { memory : mem; live : list ent; foreign : list (Z * Z); bad : bool }.
  Definition blocks (s : state) : list (Z * Z) :=
    map (fun e => (e_blk e, e_size e)) (live s) ++ foreign s.
  Definition disj (b c : Z * Z) : Prop := fst b + snd b <= fst c \/ fst c + snd c <= fst b.
  Definition inside (x : Z) (b : Z * Z) : Prop := fst b <= x < fst b + snd b.
  (** what operator new[] promises about a fresh block: in the address space, aligned for
      pointers, disjoint from every live block *)
  Definition fresh (s : state) (b : Z * Z) : Prop :=
    0 < fst b /\ fst b + snd b <= 2 ^ wd /\ fst b mod ps = 0 /\ Forall (disj b) (blocks s).
  Definition set_byte (m : mem) (a v : Z) : mem := fun x => if x =? a then v else m x.

  Inductive step : state -> state -> Prop :=
  | s_alloc s sz A n heap p pv size m' :
      0 < sz -> (A = 0 \/ exists k, 0 <= k /\ A = 2 ^ k) -> 0 <= n < 2 ^ wd ->
      n * sz + eff_align A < 2 ^ wd ->                       (* the request fits *)
      allocate sz A n heap (memory s) = Got p pv size m' ->
      fresh s (pv, size) ->
      step s (mkState m' (mkEnt p (n * sz) A pv size :: live s) (foreign s) (bad s))
  | s_write s e x v :                                        (* the user's own stores *)
      In e (live s) -> inside x (e_ptr e, e_bytes e) -> 0 <= v < 256 ->
      step s (mkState (set_byte (memory s) x v) (live s) (foreign s) (bad s))
  | s_new s b : fresh s b -> 0 <= snd b ->                    (* other users of the heap *)
      step s (mkState (memory s) (live s) (b :: foreign s) (bad s))
  | s_fwrite s b x v : In b (foreign s) -> inside x b -> 0 <= v < 256 ->
      step s (mkState (set_byte (memory s) x v) (live s) (foreign s) (bad s))
  | s_free s l1 b l2 : foreign s = l1 ++ b :: l2 ->
      step s (mkState (memory s) (live s) (l1 ++ l2) (bad s))
  | s_dealloc s l1 e l2 : live s = l1 ++ e :: l2 ->
      deallocate (e_ptr e) (memory s) = Some (e_blk e) ->
      step s (mkState (memory s) (l1 ++ l2) (foreign s) (bad s))
  | s_bad s e : In e (live s) ->                             (* delete[] of anything else *)
      deallocate (e_ptr e) (memory s) <> Some (e_blk e) ->
      step s (mkState (memory s) (live s) (foreign s) true).
  Inductive reachable : state -> Prop :=
  | r_init m : reachable (mkState m [] [] false)
  | r_step s s' : reachable s -> step s s' -> reachable s'.
End Alloc.
