(** Run-time dispatch: dispatch/dispatcher.h, dispatch/make_dispatcher.h,
    dispatch/collect_macros_generated.h. *)
From Verif Require Export Spec.Dispatch.
Open Scope Z_scope.

(** dispatch/arch.h:112-118 test_arch_subset; ~ on uint32_t (arch.h:105-109) *)
Definition test_arch_subset (current required : Z) : bool :=
  (Z.land (Z.lxor current 0xffffffff) required =? 0).

(** dispatch/dispatcher.h:79-92, the scan of the sorted array; None is std::abort() *)
Fixpoint scan {F} (arch : Z) (vs : list (fnver F)) : option (fnver F) :=
  match vs with
  | [] => None
  | v :: vs =>
    match fptr v with
    | None => scan arch vs
    | Some _ => if test_arch_subset arch (needed v) then Some v else scan arch vs
    end
  end.

(** dispatch/dispatcher.h:74-77: std::sort orders by needed_arch, descending, and leaves
    the order of equal elements unspecified: any descending permutation may result *)
Definition std_sort_desc {F} (versions vs : list (fnver F)) : Prop :=
  Permutation versions vs /\ StronglySorted (fun x y => needed y <= needed x) vs.

(** dispatch/dispatcher.h:70-93 select_version_any, as a relation between the array
    passed in and the outcome *)
Definition select_version_any {F} (versions : list (fnver F)) (arch : Z) (out : option (fnver F)) : Prop :=
  exists vs, std_sort_desc versions vs /\ scan arch vs = out.

(** make_dispatcher.h:273 `FnVersion versions[SIMDPP_DISPATCH_MAX_ARCHS] = {}` followed
    by collect_macros_generated.h SIMDPP_DISPATCH_COLLECT_FUNCTIONS: slot i is filled
    when SIMDPP_DISPATCH_ARCHi is defined and stays zero otherwise *)
Definition collect {F} (slots : list (option (fnver F))) : list (fnver F) :=
  map (fun o => match o with Some v => v | None => mkFn 0 None end) slots.

(** ---- the dispatcher function, make_dispatcher.h:268-282, called concurrently ---- *)
(** Where a caller is.  Simplification: reads and writes of the function-local static
    [selected] are atomic (in C++ it is a plain static, so unsynchronised concurrent
    calls are formally a data race; the library's comment promises this is benign).
    make_dispatcher.h:364-366 *)
Inductive pc (F : Type) :=
| Idle                      (* not inside the dispatcher *)
| Test                      (* entered; next: if (selected == nullptr)          line 272 *)
| Select                    (* saw null; next: collect and select_version_any   273-278 *)
| Write (f : option F)      (* next: selected = version.fun_ptr                 279 *)
| Call                      (* next: selected(args)                             281 *)
| Aborted                   (* std::abort() was called *)
| NullCall.                 (* called through a null pointer *)
Arguments Idle {F}. Arguments Test {F}. Arguments Select {F}. Arguments Write {F}.
Arguments Call {F}. Arguments Aborted {F}. Arguments NullCall {F}.

Record state (F : Type) := mkState { selected : option F; pool : nat -> pc F; calls : list F }.
Arguments mkState {F}. Arguments selected {F}. Arguments pool {F}. Arguments calls {F}.
Definition set_pc {F} (p : nat -> pc F) (t : nat) (x : pc F) : nat -> pc F :=
  fun u => if Nat.eqb u t then x else p u.

Inductive step {F} (slots : list (option (fnver F))) (arch : Z) : state F -> state F -> Prop :=
| st_enter s p c t : p t = Idle ->
    step slots arch (mkState s p c) (mkState s (set_pc p t Test) c)
| st_null p c t : p t = Test ->
    step slots arch (mkState None p c) (mkState None (set_pc p t Select) c)
| st_ready f p c t : p t = Test ->
    step slots arch (mkState (Some f) p c) (mkState (Some f) (set_pc p t Call) c)
| st_select s p c t v : p t = Select -> select_version_any (collect slots) arch (Some v) ->
    step slots arch (mkState s p c) (mkState s (set_pc p t (Write (fptr v))) c)
| st_abort s p c t : p t = Select -> select_version_any (collect slots) arch None ->
    step slots arch (mkState s p c) (mkState s (set_pc p t Aborted) c)
| st_write s p c t f : p t = Write f ->
    step slots arch (mkState s p c) (mkState f (set_pc p t Call) c)
| st_call f p c t : p t = Call ->
    step slots arch (mkState (Some f) p c) (mkState (Some f) (set_pc p t Idle) (f :: c))
| st_nullcall p c t : p t = Call ->
    step slots arch (mkState None p c) (mkState None (set_pc p t NullCall) c).
Definition init {F} : state F := mkState None (fun _ => Idle) [].
Inductive reachable {F} (slots : list (option (fnver F))) (arch : Z) : state F -> Prop :=
| r_init : reachable slots arch init
| r_step s s' : reachable slots arch s -> step slots arch s s' -> reachable slots arch s'.
