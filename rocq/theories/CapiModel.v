(** Model of the C interface (bindings/c/ParameterFramework.cpp) on top of the manager (parameter/ParameterMgrPlatformConnector.cpp,
    ParameterMgr.cpp).  A client holds one framework handle and any number of parameter handles.
    Simplifications: the texts of the error messages and the loggers are not modelled, only whether a call succeeds; a parameter
    handle is the position of its parameter; the C strings given are lists of characters. *)
From Coq Require Import List Arith ZArith Bool Ascii.
From Verif Require Import Base TextModel ParamTypeModel BlackboardModel TreeModel CriterionModel SyncModel DomainModel MgrModel LoadModel.
Import ListNotations.
Local Open Scope nat_scope.

(** bindings/c/ParameterFramework.h:117-138 PfwCriterion.  [None]: the null pointer. *)
Record c_criterion := CCrit { cc_name : option str; cc_incl : bool; cc_values : option (list str) }.

(** What the files named by the configuration path lead to (ParameterMgr.cpp:357-425 load).
    [LNothing]: refused before the structure is read, or with it; the system class is emptied then (ParameterMgr.cpp:620-649
    xmlParse) and the memory is not sized.  [LSettings]: the settings are refused and [s] is empty, or the initialisation of the
    elements fails.  [LDone]: everything is read; [answer]: what the hardware gives; [server]: whether the remote server, if
    wanted, could be started (it is the last step). *)
Inductive loading :=
  | LNothing
  | LSettings (y : system) (allowed : bool) (s : domains)
  | LDone (y : system) (answer : nat -> option (list byte)) (allowed : bool) (s : domains) (server : bool).

(** The files of a client: reading the settings depends on the criteria, which rules name. *)
Definition files := list criterion -> loading.

(** CParameterMgrPlatformConnector: the manager and _bStarted. *)
Record instance := Inst { in_sys : system; in_mgr : mgr; in_started : bool }.

(** bindings/c/ParameterFramework.cpp:138-153 PfwHandler_: pfw (null or not), and the map from the names to the criteria, here
    to their positions in the manager. *)
Record chandle := CHandle { ch_pfw : option instance; ch_names : list (str * nat) }.

(** bindings/c/ParameterFramework.cpp:155-158 pfwCreate. *)
Definition c_new : chandle := CHandle None [].

(** std::map::find. *)
Fixpoint name_find (n : str) (l : list (str * nat)) : option nat :=
  match l with
  | [] => None
  | (k, i) :: r => if str_eqb k n then Some i else name_find n r
  end.

(** ParameterMgr.cpp:326-336: the manager as constructed, on an empty structure. *)
Definition empty_system : system := Sys (Elem [] KdSystem []) (fun _ => None) (fun _ _ => true).
Definition fresh_mgr (cs : list criterion) (s : domains) (bb : blackboard) (allowed : bool) : mgr :=
  Mgr s bb false allowed true false false cs [].

(** bindings/c/ParameterFramework.cpp:198-217: the values of a criterion, from number [i]. *)
Fixpoint add_values (incl : bool) (i : Z) (vs : list str) (t : crit_type) : outcome crit_type :=
  match vs with
  | [] => Ok t
  | v :: r =>
      if incl && (Z.shiftr (2 ^ 31 - 1) i =? 0)%Z then Err
      else do t' <- cty_add t (if incl then Z.shiftl 1 i else to_ctype t_int32 i) v; add_values incl (i + 1) r t'
  end.

(** bindings/c/ParameterFramework.cpp:175-222 createCriteria: whether it succeeds, and the names and criteria made, those before
    a failure included. *)
Fixpoint create_criteria (cs : list c_criterion) (names : list (str * nat)) (ks : list criterion)
  : outcome (bool * list (str * nat) * list criterion) :=
  match cs with
  | [] => Ok (true, names, ks)
  | c :: r =>
      match cc_name c, cc_values c with
      | Some n, Some vs =>
          match name_find n names with
          | Some _ => Ok (false, names, ks)
          | None =>
              match add_values (cc_incl c) 0 vs (cty_new (cc_incl c)) with
              | Ok t => create_criteria r (names ++ [(n, List.length ks)]) (crits_create ks n t)
              | Err => Ok (false, names, ks)
              | Abort => Abort
              | UB => UB
              end
          end
      | _, _ => Ok (false, names, ks)
      end
  end.

(** ParameterMgr.cpp:357-425 load, ParameterMgrPlatformConnector.cpp:173-185 start. *)
Definition load_instance (ks : list criterion) (l : loading) : outcome instance :=
  match l with
  | LNothing => Ok (Inst empty_system (fresh_mgr ks (Domains [] [] 0) [] false) false)
  | LSettings y allowed s => Ok (Inst y (fresh_mgr ks s (initial_blackboard (sy_root y)) allowed) false)
  | LDone y answer allowed s server => do m <- start_up y answer allowed ks s; Ok (Inst y m server)
  end.

(** bindings/c/ParameterFramework.cpp:224-245 pfwStart. *)
Definition c_start (f : files) (cs : list c_criterion) (h : chandle) : outcome (bool * chandle) :=
  match ch_pfw h with
  | Some _ => Ok (false, h)
  | None =>
      do x <- create_criteria cs (ch_names h) [];
      let '(ok, names, ks) := x in
      do i <- load_instance ks (if ok then f ks else LNothing);
      Ok (in_started i, CHandle (Some i) names)
  end.

(** strdup(retValue.c_str()): up to the first null character. *)
Fixpoint c_str (s : str) : str :=
  match s with
  | [] => []
  | c :: r => if char_eqb c zero then [] else c :: c_str r
  end.

(** The calls of a client.  [KTune]: a command received meanwhile by the remote server of a started framework. *)
Inductive ccall :=
  | KStart (f : files) (cs : list c_criterion)
  | KSetCriterion (name : str) (v : Z)
  | KGetCriterion (name : str)
  | KApply (need : list nat)
  | KBind (path : str)
  | KGetInt (p : pos)
  | KSetInt (p : pos) (v : Z)
  | KGetString (p : pos)
  | KSetString (p : pos) (s : str)
  | KTune (c : cmd).

Inductive answer := AFailed | ADone | AInt (v : Z) | AText (s : str) | AHandle (p : pos).
Definition status (b : bool) : answer := if b then ADone else AFailed.

(** The manager of the handle replaced. *)
Definition with_mgr (h : chandle) (i : instance) (m : mgr) : chandle := CHandle (Some (Inst (in_sys i) m (in_started i))) (ch_names h).

(** A command of the manager that succeeds or fails. *)
Definition c_step (h : chandle) (i : instance) (c : cmd) : outcome (answer * chandle) :=
  do x <- step (in_sys i) (in_mgr i) c; Ok (status (fst x), with_mgr h i (snd x)).

(** ParameterMgr.cpp:734-755 createParameterHandle, 698-731 getConfigurableElement. *)
Definition parameter_handle (y : system) (path : str) : option pos :=
  match locate (sy_root y) path with
  | None => None
  | Some p => match elem_at (sy_root y) p with Some e => if is_param (e_kind e) then Some p else None | None => None end
  end.

(** A getter of a handle: a failure is an error of the call. *)
Definition c_read (h : chandle) (i : instance) (p : pos) (k : hkind) : outcome (answer * chandle) :=
  match handle_get (in_sys i) p k (in_mgr i) with
  | Ok (HVal (UInt v)) => Ok (AInt v, h)
  | Ok (HStr s) => Ok (AText (c_str s), h)
  | Ok _ => Ok (AFailed, h)
  | Err => Ok (AFailed, h)
  | Abort => Abort
  | UB => UB
  end.

(** bindings/c/ParameterFramework.cpp:224-362.  The calls on a parameter handle suppose that it was given by pfwBindParameter. *)
Definition call (h : chandle) (k : ccall) : outcome (answer * chandle) :=
  match k with
  | KStart f cs => do x <- c_start f cs h; Ok (status (fst x), snd x)
  | _ =>
      match ch_pfw h with
      | None => Ok (AFailed, h)
      | Some i =>
          match k with
          | KStart _ _ => Ok (AFailed, h)
          | KSetCriterion n v =>
              match name_find n (ch_names h) with
              | None => Ok (AFailed, h)
              | Some j => c_step h i (CCriterion j v)
              end
          | KGetCriterion n =>
              match name_find n (ch_names h) with
              | None => Ok (AFailed, h)
              | Some j => match nth_error (mg_crits (in_mgr i)) j with
                          | Some c => Ok (AInt (cr_state c), h)
                          | None => UB
                          end
              end
          | KApply need => c_step h i (CApply need)
          | KBind path => match parameter_handle (in_sys i) path with
                          | Some p => Ok (AHandle p, h)
                          | None => Ok (AFailed, h)
                          end
          | KGetInt p => c_read h i p (HKVal KInt)
          | KSetInt p v => c_step h i (CHandleSet p (HVal (UInt v)))
          | KGetString p => c_read h i p HKStr
          | KSetString p s => c_step h i (CHandleSet p (HStr s))
          | KTune c => if in_started i && tuning_command c then c_step h i c else Ok (AFailed, h)
          end
      end
  end.

(** A client. *)
Fixpoint calls (h : chandle) (ks : list ccall) : outcome (list answer * chandle) :=
  match ks with
  | [] => Ok ([], h)
  | k :: r => do x <- call h k; do z <- calls (snd x) r; Ok (fst x :: fst z, snd z)
  end.
