(** Vocabulary of the statements about several threads. *)
From Coq Require Import List Arith ZArith Bool Ascii.
From Verif Require Import Base BlackboardModel TreeModel SyncModel DomainModel MgrModel ThreadModel.
Import ListNotations.
Local Open Scope nat_scope.

(** What a call does when it is alone: the commands of the other properties. *)
Definition command_of (c : kcall) : option cmd :=
  match c with
  | KApply need => Some (CApply need)
  | KSet p v => Some (CHandleSet p v)
  | KSetText path v => Some (CSetParameter path v)
  | KTuning on need => Some (CTuning on need)
  | KGet _ _ | KGetText _ => None
  end.
Definition got {A} (f : A -> kres) (m : mgr) (o : outcome A) : outcome (kres * mgr) :=
  match o with Ok a => Ok (f a, m) | Err => Ok (RNone, m) | Abort => Abort | UB => UB end.
Definition alone (y : system) (c : kcall) (m : mgr) : outcome (kres * mgr) :=
  match c with
  | KGet p h => got RVal m (handle_get y p h m)
  | KGetText path => got RText m (get_parameter y path m)
  | _ => match command_of c with
         | Some k => do x <- step y m k; Ok (RBool (fst x), snd x)
         | None => Err
         end
  end.

(** The calls, one after the other, return this. *)
Inductive serially (y : system) : mgr -> list return_ -> mgr -> Prop :=
  | se_none : forall m, serially y m [] m
  | se_call : forall m i c v m1 es m2, alone y c m = Ok (v, m1) -> serially y m1 es m2 -> serially y m (Return i c v :: es) m2.

(** The calls of a thread that returned. *)
Definition of_thread (i : nat) (es : list return_) : list return_ := filter (fun e => rt_thread e =? i) es.

(** The calls that the tuning mode matters for. *)
Definition switches (c : kcall) : Prop := match c with KTuning _ _ => True | _ => False end.
Definition heeds (c : kcall) : Prop := match c with KTuning _ _ | KSet _ _ | KSetText _ _ => True | _ => False end.

(** A thread that switches the tuning mode is the only one that heeds it. *)
Definition compatible (programs : list (list kcall)) : Prop :=
  forall i j a b c d, nth_error programs i = Some a -> nth_error programs j = Some b -> In c a -> In d b -> switches c -> heeds d -> i = j.

Definition finished (w : world) : Prop := forall t, In t (wo_threads w) -> th_calls t = [].
