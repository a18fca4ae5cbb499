(** Model of calls made by several threads: the background server that executes remote commands and the threads of the client
    (parameter/ElementHandle.cpp, parameter/ParameterMgr.cpp).  The calls are those that take the lock of the parameter memory
    (ParameterMgr.h:881 _blackboardMutex).  A call looks at the state without the lock, then may wait for the lock, take it, do its work and
    release it.  Memory is sequentially consistent.  The work under the lock is one step: what it writes is only looked at without the
    lock in the tuning flag, which it writes once at its end, and in the association of elements and domains, which it does not write.
    The settings of the value space, the output format and of auto-sync do not change meanwhile (no call of the list does). *)
From Coq Require Import List Arith ZArith Bool Ascii.
From Verif Require Import Base BlackboardModel TreeModel SyncModel DomainModel MgrModel.
Import ListNotations.
Local Open Scope nat_scope.

(** applyConfigurations; the getters and setters of a handle; the remote commands getParameter, setParameter and setTuningMode. *)
Inductive kcall :=
  | KApply (need : list nat)
  | KGet (p : pos) (h : hkind)
  | KSet (p : pos) (v : hval)
  | KGetText (path : str)
  | KSetText (path value : str)
  | KTuning (on : bool) (need : list nat).

(** What a call returns; [RNone]: an error of a getter. *)
Inductive kres := RBool (b : bool) | RVal (v : hval) | RText (s : str) | RNone.

(** What a call does after a look without the lock: it returns, it looks again, or it asks for the lock. *)
Inductive look := LDone (r : kres) | LNext | LLock.

Definition unlocked (y : system) (c : kcall) (n : nat) (m : mgr) : look :=
  match c with
  (* ElementHandle.cpp:198-209: first the check, then the tuning mode *)
  | KSet p v =>
      match n with
      | 0 => match elem_at (sy_root y) p with
             | Some e => if check_set e p (hval_size v) (ds_att (mg_doms m)) then LNext else LDone (RBool false)
             | None => LDone (RBool false)
             end
      | _ => if mg_tuning m then LDone (RBool true) else LLock
      end
  (* ElementHandle.cpp:226-228 *)
  | KGet p h =>
      match elem_at (sy_root y) p with
      | Some e => if check_get (e_kind e) (hkind_array h) then LLock else LDone RNone
      | None => LDone RNone
      end
  (* ParameterMgr.cpp:1959-1979 accessParameterValue: setting needs the tuning mode *)
  | KSetText _ _ => if mg_tuning m then LLock else LDone (RBool false)
  (* ParameterMgr.cpp:2114-2124 setTuningMode *)
  | KTuning on _ => if Bool.eqb on (mg_tuning m) then LDone (RBool false) else if on && negb (mg_allowed m) then LDone (RBool false) else LLock
  (* ParameterMgr.cpp:680-685 applyConfigurations, 2089-2094 accessValue *)
  | KApply _ | KGetText _ => LLock
  end.

(** The result of a getter: an error is a result too. *)
Definition reading (m : mgr) (o : outcome kres) : outcome (kres * mgr) :=
  match o with Ok r => Ok (r, m) | Err => Ok (RNone, m) | Abort => Abort | UB => UB end.

Definition done_bool (o : outcome (bool * mgr)) : outcome (kres * mgr) := do x <- o; Ok (RBool (fst x), snd x).

(** The work under the lock. *)
Definition locked (y : system) (c : kcall) (m : mgr) : outcome (kres * mgr) :=
  match c with
  (* ElementHandle.cpp:217-220 *)
  | KSet p v => done_bool (handle_commit y p v m)
  (* ElementHandle.cpp:232-237 *)
  | KGet p h => match elem_at (sy_root y) p with
                | Some e => reading m (omap RVal (handle_read (e_kind e) h (offset (sy_root y) p) (mg_main m)))
                | None => Ok (RNone, m)
                end
  (* ParameterMgr.cpp:2093-2108 *)
  | KGetText path => reading m (omap RText (get_parameter y path m))
  | KSetText path v => done_bool (set_live y path v m)
  (* ParameterMgr.cpp:2125-2139 *)
  | KTuning on need => if on then Ok (RBool true, with_tuning m true) else do m' <- do_apply y true need m; Ok (RBool true, with_tuning m' false)
  (* ParameterMgr.cpp:684-694 *)
  | KApply need => do m' <- apply_configurations y need m; Ok (RBool true, m')
  end.

(** ** Threads *)

(** Where a thread is in its current call. *)
Inductive phase := Looking (n : nat) | Waiting | Inside.

(** A thread: the calls that it has not finished, in order, and where it is in the first. *)
Record thread := Thread { th_calls : list kcall; th_phase : phase }.

(** The state of the framework, who has the lock, the threads. *)
Record world := World { wo_mgr : mgr; wo_lock : option nat; wo_threads : list thread }.

(** A call returned: in which thread, which call, with what. *)
Record return_ := Return { rt_thread : nat; rt_call : kcall; rt_res : kres }.

Fixpoint put {A} (i : nat) (x : A) (l : list A) : list A :=
  match l, i with
  | [], _ => []
  | _ :: r, 0 => x :: r
  | a :: r, S j => a :: put j x r
  end.

(** One step of one thread, and the call that returns then, if any. *)
Inductive tstep (y : system) : world -> list return_ -> world -> Prop :=
  | t_next : forall m l ts i c r n, nth_error ts i = Some (Thread (c :: r) (Looking n)) -> unlocked y c n m = LNext ->
      tstep y (World m l ts) [] (World m l (put i (Thread (c :: r) (Looking (S n))) ts))
  | t_done : forall m l ts i c r n v, nth_error ts i = Some (Thread (c :: r) (Looking n)) -> unlocked y c n m = LDone v ->
      tstep y (World m l ts) [Return i c v] (World m l (put i (Thread r (Looking 0)) ts))
  | t_wait : forall m l ts i c r n, nth_error ts i = Some (Thread (c :: r) (Looking n)) -> unlocked y c n m = LLock ->
      tstep y (World m l ts) [] (World m l (put i (Thread (c :: r) Waiting) ts))
  | t_lock : forall m ts i c r, nth_error ts i = Some (Thread (c :: r) Waiting) ->
      tstep y (World m None ts) [] (World m (Some i) (put i (Thread (c :: r) Inside) ts))
  | t_release : forall m ts i c r v m', nth_error ts i = Some (Thread (c :: r) Inside) -> locked y c m = Ok (v, m') ->
      tstep y (World m (Some i) ts) [Return i c v] (World m' None (put i (Thread r (Looking 0)) ts)).

(** [n] steps of any threads; the calls that return, in order. *)
Inductive texec (y : system) : world -> nat -> list return_ -> world -> Prop :=
  | x_none : forall w, texec y w 0 [] w
  | x_step : forall w n es w' e w'', texec y w n es w' -> tstep y w' e w'' -> texec y w (S n) (es ++ e) w''.

(** Threads that begin. *)
Definition begun (m : mgr) (programs : list (list kcall)) : world := World m None (map (fun p => Thread p (Looking 0)) programs).
