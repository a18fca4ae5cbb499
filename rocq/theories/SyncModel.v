(** Model of the syncers, the sets of syncers and their synchronisation with the hardware
    (parameter/SyncerSet.cpp, ConfigurableElement.cpp, InstanceConfigurableElement.cpp, VirtualSubsystem.cpp). *)
From Coq Require Import List Arith Bool.
From Verif Require Import Base BlackboardModel TreeModel.
Import ListNotations.
Local Open Scope nat_scope.

(** One call of ISyncer::sync(blackboard, false, error): the syncer, the memory it was given, its result. *)
Record event := Event { ev_syncer : nat; ev_mem : blackboard; ev_ok : bool }.

(** What does not change after the structure is loaded and mapped: the tree; the syncer that an element holds itself
    (_pSyncer, or the virtual syncer of a virtual subsystem), named by its address; and the hardware: whether the next call
    of a syncer succeeds, knowing all the calls made so far.
    Simplification: pushing to the hardware does not modify the blackboard. *)
Record system := Sys { sy_root : elem; sy_own : list nat -> option nat; sy_hw : list event -> nat -> bool }.

(** std::set<ISyncer *>: ordered by address. *)
Fixpoint set_add (s : nat) (ss : list nat) : list nat :=
  match ss with
  | [] => [s]
  | x :: r => if s <? x then s :: ss else if s =? x then ss else x :: set_add s r
  end.

(** SyncerSet.cpp:40-48 operator+=. *)
Definition set_union (a b : list nat) : list nat := fold_left (fun acc s => set_add s acc) b a.

(** ConfigurableElement.cpp:372-382, InstanceConfigurableElement.cpp:152-160 getSyncer: own syncer, or the one of the
    nearest ancestor.  The recursion is on the reversed position, whose head is the index of the element itself. *)
Fixpoint syncer_up (own : list nat -> option nat) (rp : pos) : option nat :=
  match own (rev rp) with
  | Some s => Some s
  | None => match rp with [] => None | _ :: r => syncer_up own r end
  end.
Definition get_syncer (y : system) (p : pos) : option nat := syncer_up (sy_own y) (rev p).

(** ConfigurableElement.cpp:403-415, InstanceConfigurableElement.cpp:163-172 fillSyncerSetFromDescendant. *)
Fixpoint fill_desc (own : list nat -> option nat) (e : elem) (p : pos) (ss : list nat) : list nat :=
  match e with
  | Elem _ _ cs =>
      match own p with
      | Some s => set_add s ss
      | None => (fix go (cs : list elem) (i : nat) (ss : list nat) : list nat :=
                   match cs with
                   | [] => ss
                   | c :: r => go r (S i) (fill_desc own c (p ++ [i]) ss)
                   end) cs 0 ss
      end
  end.

(** ConfigurableElement.cpp:385-400 fillSyncerSet. *)
Definition fill_syncer_set (y : system) (p : pos) (ss : list nat) : list nat :=
  match get_syncer y p with
  | Some s => set_add s ss
  | None => match elem_at (sy_root y) p with
            | Some e => fill_desc (sy_own y) e p ss
            | None => ss
            end
  end.

(** The syncer set created for an element associated to a domain (ConfigurableDomain.cpp:1109-1112). *)
Definition syncer_set (y : system) (p : pos) : list nat := fill_syncer_set y p [].

(** One call of a syncer; the trace grows at its end. *)
Definition sync_one (y : system) (s : nat) (bb : blackboard) (tr : list event) : bool * list event :=
  let ok := sy_hw y tr s in (ok, tr ++ [Event s bb ok]).

(** SyncerSet.cpp:55-79 sync: success, syncers that failed (one error message each), trace. *)
Fixpoint sync_set (y : system) (ss : list nat) (bb : blackboard) (tr : list event) : bool * list nat * list event :=
  match ss with
  | [] => (true, [], tr)
  | s :: r =>
      let (ok, tr1) := sync_one y s bb tr in
      let '(ok2, errs, tr2) := sync_set y r bb tr1 in
      (ok && ok2, (if ok then errs else s :: errs), tr2)
  end.
