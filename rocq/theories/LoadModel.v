(** Model of the start of the framework: the memory read back from the hardware, then the domains (parameter/ParameterMgr.cpp,
    BackSynchronizer.h, HardwareBackSynchronizer.cpp, SimulatedBackSynchronizer.cpp, SubsystemObject.cpp, VirtualSyncer.cpp). *)
From Coq Require Import List Arith Bool.
From Verif Require Import Base BlackboardModel TreeModel CriterionModel SyncModel DomainModel MgrModel.
Import ListNotations.
Local Open Scope nat_scope.

(** The syncers of the structure, each with the position of its element (SubsystemObject.cpp:46-53, the constructor, which
    gives itself to the element; VirtualSubsystem.cpp). *)
Fixpoint owners (own : list nat -> option nat) (e : elem) (p : pos) : list (nat * pos) :=
  match e with
  | Elem _ _ cs =>
      match own p with Some s => [(s, p)] | None => [] end
      ++ (fix go (cs : list elem) (i : nat) : list (nat * pos) :=
            match cs with
            | [] => []
            | c :: r => owners own c (p ++ [i]) ++ go r (S i)
            end) cs 0
  end.

(** One call of ISyncer::sync(blackboard, true, error) (SubsystemObject.cpp:107-142, VirtualSyncer.cpp:42-55).  [answer]: what
    the hardware gives for the memory of the syncer, none on failure (subsystem not alive, access error, virtual syncer): the
    element is then given its default values.  Simplification: an object writes all of its memory and nothing else;
    [UB] stands for an object that does not (a plugin that accesses more or less than the size it is given). *)
Definition back_one (y : system) (answer : nat -> option (list byte)) (s : nat) (bb : blackboard) : outcome blackboard :=
  match find (fun x => fst x =? s) (owners (sy_own y) (sy_root y) []) with
  | None => Ok bb
  | Some (_, p) =>
      match elem_at (sy_root y) p with
      | None => Ok bb
      | Some e =>
          match answer s with
          | Some bytes => if List.length bytes =? footprint e then bb_write_bytes bb bytes (offset (sy_root y) p) else UB
          | None => set_defaults e (offset (sy_root y) p) 0 bb
          end
      end
  end.

Fixpoint ofold {A B : Type} (f : A -> B -> outcome B) (l : list A) (b : B) : outcome B :=
  match l with
  | [] => Ok b
  | x :: r => do b' <- f x b; ofold f r b'
  end.

(** HardwareBackSynchronizer.cpp:36-50 constructor: the syncers of the elements to read back. *)
Definition back_syncers (y : system) (cs : list criterion) (s : domains) : list nat :=
  fold_left (fun ss p => fill_syncer_set y p ss) (back_sync_elements cs s (sy_root y) []) [].

(** HardwareBackSynchronizer.cpp:53-57 sync, SyncerSet.cpp:55-79: errors are ignored (no error list is given). *)
Definition hw_back_sync (y : system) (answer : nat -> option (list byte)) (cs : list criterion) (s : domains) (bb : blackboard) : outcome blackboard :=
  ofold (back_one y answer) (back_syncers y cs s) bb.

(** SimulatedBackSynchronizer.cpp:39-56: in simulation, the default values of the elements to read back. *)
Definition sim_back_sync (y : system) (cs : list criterion) (s : domains) (bb : blackboard) : outcome blackboard :=
  ofold (fun p bb => match elem_at (sy_root y) p with Some e => set_defaults e (offset (sy_root y) p) 0 bb | None => Ok bb end)
        (back_sync_elements cs s (sy_root y) []) bb.

(** ParameterMgr.cpp:357-425 load, from the back synchronisation on. *)
Definition start_up (y : system) (answer : nat -> option (list byte)) (allowed : bool) (cs : list criterion) (s : domains) : outcome mgr :=
  do bb <- hw_back_sync y answer cs s (initial_blackboard (sy_root y));
  load y allowed cs s bb.

(** The same in a build for simulation (ParameterMgr.cpp:109-116). *)
Definition start_up_sim (y : system) (allowed : bool) (cs : list criterion) (s : domains) : outcome mgr :=
  do bb <- sim_back_sync y cs s (initial_blackboard (sy_root y));
  load y allowed cs s bb.
