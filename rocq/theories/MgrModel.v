(** Model of the parameter manager: the commands of the tuning interface, the application of configurations and the element
    handles of the client (parameter/ParameterMgr.cpp, parameter/ElementHandle.cpp). *)
From Coq Require Import List Arith ZArith Bool.
From Verif Require Import Base TextModel ParamTypeModel BlackboardModel BitModel ArrayModel TreeModel CriterionModel RuleModel
  SyncModel DomainModel.
Import ListNotations.
Local Open Scope nat_scope.

(** ParameterMgr.h:846-862: what the commands change.  [mg_allowed]: the TuningAllowed attribute of the framework
    configuration. *)
Record mgr := Mgr {
  mg_doms : domains;
  mg_main : blackboard;
  mg_tuning : bool;
  mg_allowed : bool;
  mg_autosync : bool;
  mg_raw : bool;
  mg_hex : bool;
  mg_crits : list criterion;
  mg_trace : list event
}.

Definition with_doms (m : mgr) (s : domains) : mgr :=
  Mgr s (mg_main m) (mg_tuning m) (mg_allowed m) (mg_autosync m) (mg_raw m) (mg_hex m) (mg_crits m) (mg_trace m).
Definition with_main (m : mgr) (bb : blackboard) : mgr :=
  Mgr (mg_doms m) bb (mg_tuning m) (mg_allowed m) (mg_autosync m) (mg_raw m) (mg_hex m) (mg_crits m) (mg_trace m).
Definition with_trace (m : mgr) (tr : list event) : mgr :=
  Mgr (mg_doms m) (mg_main m) (mg_tuning m) (mg_allowed m) (mg_autosync m) (mg_raw m) (mg_hex m) (mg_crits m) tr.
Definition with_tuning (m : mgr) (b : bool) : mgr :=
  Mgr (mg_doms m) (mg_main m) b (mg_allowed m) (mg_autosync m) (mg_raw m) (mg_hex m) (mg_crits m) (mg_trace m).
Definition with_autosync (m : mgr) (b : bool) : mgr :=
  Mgr (mg_doms m) (mg_main m) (mg_tuning m) (mg_allowed m) b (mg_raw m) (mg_hex m) (mg_crits m) (mg_trace m).
Definition with_raw (m : mgr) (b : bool) : mgr :=
  Mgr (mg_doms m) (mg_main m) (mg_tuning m) (mg_allowed m) (mg_autosync m) b (mg_hex m) (mg_crits m) (mg_trace m).
Definition with_hex (m : mgr) (b : bool) : mgr :=
  Mgr (mg_doms m) (mg_main m) (mg_tuning m) (mg_allowed m) (mg_autosync m) (mg_raw m) b (mg_crits m) (mg_trace m).
Definition with_crits (m : mgr) (cs : list criterion) : mgr :=
  Mgr (mg_doms m) (mg_main m) (mg_tuning m) (mg_allowed m) (mg_autosync m) (mg_raw m) (mg_hex m) cs (mg_trace m).

Definition mg_fmt (m : mgr) : fmt := Fmt (mg_raw m) (mg_hex m).

(** ** Parameters *)

(** InstanceConfigurableElement.cpp:174-200 sync. *)
Definition sync_param (y : system) (p : pos) (autosync : bool) (bb : blackboard) (tr : list event) : bool * list event :=
  if autosync then
    match get_syncer y p with
    | None => (false, tr)
    | Some s => sync_one y s bb tr
    end
  else (true, tr).

(** A write in the main memory, followed when it is accepted by the synchronisation of the element (BaseParameter.cpp:147-173,
    Parameter.cpp:142-169, BitParameter.cpp:113-138, ArrayParameter.cpp:72-118 and 322-349). *)
Definition write_main (y : system) (p : pos) (autosync : bool) (o : outcome (bool * blackboard)) (m : mgr)
  : outcome (bool * mgr) :=
  do x <- o;
  if fst x then
    let (ok, tr) := sync_param y p autosync (snd x) (mg_trace m) in Ok (ok, with_trace (with_main m (snd x)) tr)
  else Ok (false, with_main m (snd x)).

(** ParameterMgr.cpp:2089-2109 accessValue, setting in the main memory. *)
Definition set_live (y : system) (path s : str) (m : mgr) : outcome (bool * mgr) :=
  match param_of (sy_root y) path with
  | None => Ok (false, m)
  | Some (p, _) => write_main y p (mg_autosync m) (access_set (sy_root y) (mg_fmt m) path s 0 (mg_main m)) m
  end.

(** ParameterMgr.cpp:1959-1979 accessParameterValue, getting. *)
Definition get_parameter (y : system) (path : str) (m : mgr) : outcome str :=
  access_get (sy_root y) (mg_fmt m) path 0 (mg_main m).

(** ** Recorded settings *)

(** The memory of the area of the element [p] replaced. *)
Definition cf_edit (p : pos) (bb : blackboard) (c : config) : config :=
  with_areas c (map (fun a => if pos_eqb (ar_pos a) p then Area (ar_pos a) bb (ar_valid a) else a) (cf_areas c)).

Definition ds_edit (dom name : str) (p : pos) (bb : blackboard) : domains -> outcome (bool * domains) :=
  ds_on dom (dm_on_config name (fun c => Ok (true, cf_edit p bb c))).

Definition cf_area_bb (p : pos) (c : config) : blackboard :=
  match find (fun a => pos_eqb (ar_pos a) p) (cf_areas c) with Some a => ar_bb a | None => [] end.

(** ParameterMgr.cpp:2009-2086 accessConfigurationValue, setting. *)
Definition set_recorded (y : system) (dom name path s : str) (m : mgr) : outcome (bool * mgr) :=
  match locate (sy_root y) path with
  | None => Ok (false, m)
  | Some p =>
      match ds_find_blackboard dom name p (mg_doms m) with
      | None => Ok (false, m)
      | Some (d, c, e) =>
          do x <- access_set (sy_root y) (mg_fmt m) path s (offset (sy_root y) e) (cf_area_bb e c);
          do z <- ds_edit dom name e (snd x) (mg_doms m);
          let m' := with_doms m (snd z) in
          if fst x then if is_last d c then set_live y path s m' else Ok (true, m') else Ok (false, m')
      end
  end.

(** ParameterMgr.cpp:2009-2086 accessConfigurationValue, getting: on the last applied configuration, the second access, to the
    main memory, overwrites the result. *)
Definition get_recorded (y : system) (dom name path : str) (m : mgr) : outcome str :=
  match locate (sy_root y) path with
  | None => Err
  | Some p =>
      match ds_find_blackboard dom name p (mg_doms m) with
      | None => Err
      | Some (d, c, e) =>
          do v <- access_get (sy_root y) (mg_fmt m) path (offset (sy_root y) e) (cf_area_bb e c);
          if is_last d c then get_parameter y path m else Ok v
      end
  end.

(** ** Synchronisation *)

(** ParameterMgr.cpp:2196-2220 sync. *)
Definition do_sync (y : system) (m : mgr) : bool * mgr :=
  if mg_autosync m then (false, m)
  else let '(ok, _, tr) := sync_set y (syncer_set y []) (mg_main m) (mg_trace m) in (ok, with_trace m tr).

(** ParameterMgr.cpp:2171-2188 setAutoSync. *)
Definition set_autosync (y : system) (on : bool) (m : mgr) : bool * mgr :=
  if on && negb (mg_autosync m) then
    let (ok, m') := do_sync y m in if ok then (true, with_autosync m' true) else (false, m')
  else (true, with_autosync m on).

(** ** Application of configurations *)

(** SystemClass.cpp:228-245 checkForSubsystemsToResync.  [need]: the subsystems that ask for a resynchronisation, by index. *)
Definition resync_syncers (y : system) (need : list nat) : list nat :=
  fold_left (fun ss i => if existsb (Nat.eqb i) need then fill_syncer_set y [i] ss else ss)
            (seq 0 (List.length (e_children (sy_root y)))) [].

(** ParameterMgr.cpp:2928-2945 doApplyConfigurations. *)
Definition do_apply (y : system) (force : bool) (need : list nat) (m : mgr) : outcome mgr :=
  do x <- ds_apply y (mg_crits m) force (resync_syncers y need) (mg_doms m) (mg_main m) (mg_trace m);
  let '(s, bb, tr) := x in
  Ok (with_crits (with_trace (with_main (with_doms m s) bb) tr) (crits_reset (mg_crits m))).

(** ParameterMgr.cpp:357-425 load, once the structure and the settings are read ([s]: the domains) and the memory is read back
    from the hardware ([bb], see LoadModel): validation of the domains, then application.  326-336 constructor and
    ParameterMgr.h:847-859: tuning off, auto-sync on, real value space, decimal output. *)
Definition load (y : system) (allowed : bool) (cs : list criterion) (s : domains) (bb : blackboard) : outcome mgr :=
  do s1 <- ds_validate y bb s;
  do_apply y true [] (Mgr s1 bb false allowed true false false cs []).

(** ParameterMgr.cpp:680-695 applyConfigurations. *)
Definition apply_configurations (y : system) (need : list nat) (m : mgr) : outcome mgr :=
  if mg_tuning m then Ok m else do_apply y false need m.

(** ParameterMgr.cpp:2112-2140 setTuningMode. *)
Definition set_tuning (y : system) (on : bool) (need : list nat) (m : mgr) : outcome (bool * mgr) :=
  if Bool.eqb on (mg_tuning m) then Ok (false, m)
  else if on && negb (mg_allowed m) then Ok (false, m)
  else if on then Ok (true, with_tuning m true)
  else do m' <- do_apply y true need m; Ok (true, with_tuning m' false).

(** ** Element handles *)

(** The argument of the setters of a handle.  [HVals], [HStrs]: the arrays. *)
Inductive hval := HVal (v : uval) | HStr (s : str) | HVals (vs : list uval) | HStrs (ss : list str).

(** ElementHandle.cpp:43-55 getUserInputSize. *)
Definition hval_size (v : hval) : nat :=
  match v with HVal _ | HStr _ => 0 | HVals vs => List.length vs | HStrs ss => List.length ss end.

(** ElementHandle.cpp:91-104 getArrayLength, isArray. *)
Definition array_length (k : ekind) : nat := match k with KdArray _ len => len | _ => 0 end.
Definition is_array (k : ekind) : bool := negb (array_length k =? 0).

(** ElementHandle.cpp:345-361 checkGetValidity. *)
Definition check_get (k : ekind) (as_array : bool) : bool := is_param k && Bool.eqb as_array (is_array k).

(** ElementHandle.cpp:364-386 checkSetValidity. *)
Definition check_set (e : elem) (p : pos) (len : nat) (at_ : attachments) : bool :=
  check_get (e_kind e) (negb (len =? 0)) && is_rogue at_ e p && ((len =? 0) || (len =? array_length (e_kind e))).

(** The overloads of BaseParameter::access, setting, without the synchronisation: BaseParameter.cpp:94-182, Parameter.cpp:112-189,
    BitParameter.cpp:80-179, StringParameter.cpp:70-88, ArrayParameter.cpp:136-168 and 322-373.  The scalar accesses of an
    array are excluded by the check before; a string array given to a scalar returns false (assertion in a debug build). *)
Definition handle_write (k : ekind) (v : hval) (off : nat) (bb : blackboard) : outcome (bool * blackboard) :=
  let f := Fmt false false in
  match k, v with
  | KdParam t, HVal u => committed bb (param_set_val t f u off bb)
  | KdParam t, HStr s => committed bb (param_set_str t f s off bb)
  | KdBit t, HVal u => committed bb (bitparam_set_val t u off bb)
  | KdBit t, HStr s => committed bb (bitparam_set_str t s off bb)
  | KdString max, HStr s => committed bb (string_set max s off bb)
  | KdArray t _, HVals vs => array_set_vals t f vs off bb
  | KdArray t _, HStrs ss => array_set_list t f ss off bb
  | _, _ => Ok (false, bb)
  end.

(** ElementHandle.cpp:217-220: the part of setAs under the lock; auto-sync is on whatever the setting of the manager
    (ParameterAccessContext.h:93). *)
Definition handle_commit (y : system) (p : pos) (v : hval) (m : mgr) : outcome (bool * mgr) :=
  match elem_at (sy_root y) p with
  | None => Ok (false, m)
  | Some e => write_main y p true (handle_write (e_kind e) v (offset (sy_root y) p) (mg_main m)) m
  end.

(** ElementHandle.cpp:196-221 setAs, alone. *)
Definition handle_set (y : system) (p : pos) (v : hval) (m : mgr) : outcome (bool * mgr) :=
  match elem_at (sy_root y) p with
  | None => Ok (false, m)
  | Some e =>
      if check_set e p (hval_size v) (ds_att (mg_doms m)) then
        if mg_tuning m then Ok (true, m) else handle_commit y p v m
      else Ok (false, m)
  end.

(** What a getter of a handle asks for. *)
Inductive hkind := HKVal (k : ukind) | HKStr | HKVals (k : ukind) | HKStrs.
Definition hkind_array (k : hkind) : bool := match k with HKVal _ | HKStr => false | _ => true end.

(** ElementHandle.cpp:223-238 getAs and the overloads of BaseParameter::access, getting. *)
Definition handle_read (k : ekind) (h : hkind) (off : nat) (bb : blackboard) : outcome hval :=
  let f := Fmt false false in
  match k, h with
  | KdParam t, HKVal u => omap HVal (param_get_val t u off bb)
  | KdParam t, HKStr => omap HStr (param_get_str t f off bb)
  | KdBit t, HKVal u => omap HVal (bitparam_get_val t u off bb)
  | KdBit t, HKStr => omap HStr (bitparam_get_str t f off bb)
  | KdString _, HKStr => omap HStr (string_get off bb)
  | KdArray t len, HKVals u => omap HVals (array_get_vals t u len off bb)
  | KdArray t len, HKStrs => omap HStrs (array_get_list t f len off bb)
  | _, _ => Err
  end.

Definition handle_get (y : system) (p : pos) (h : hkind) (m : mgr) : outcome hval :=
  match elem_at (sy_root y) p with
  | None => Err
  | Some e => if check_get (e_kind e) (hkind_array h) then handle_read (e_kind e) h (offset (sy_root y) p) (mg_main m)
              else Err
  end.

(** ElementHandle.cpp:191-194 setAsBytes, ParameterMgr.cpp:801-817, ConfigurableElement.cpp:241-277 setSettingsAsBytes. *)
Definition handle_bytes (y : system) (p : pos) (bytes : list byte) (m : mgr) : outcome (bool * mgr) :=
  match elem_at (sy_root y) p with
  | None => Ok (false, m)
  | Some _ =>
      match set_bytes (sy_root y) p bytes 0 (mg_main m) with
      | Ok bb =>
          if mg_autosync m then
            let '(ok, _, tr) := sync_set y (syncer_set y p) bb (mg_trace m) in Ok (ok, with_trace (with_main m bb) tr)
          else Ok (true, with_main m bb)
      | Err => Ok (false, m)
      | Abort => Abort
      | UB => UB
      end
  end.

(** ** Commands *)

(** The commands of the tuning interface that may change something, then what a client does. *)
Inductive cmd :=
  | CSetParameter (path value : str)
  | CSetConfigParameter (dom conf path value : str)
  | CTuning (on : bool) (need : list nat)
  | CAutoSync (on : bool)
  | CSync
  | CValueSpace (raw : bool)
  | COutputFormat (hex : bool)
  | CCreateDomain (name : str)
  | CDeleteDomain (name : str)
  | CDeleteAllDomains
  | CRenameDomain (name new : str)
  | CSequenceAware (dom : str) (b : bool)
  | CCreateConfig (dom conf : str)
  | CDeleteConfig (dom conf : str)
  | CRenameConfig (dom conf new : str)
  | CRestore (dom conf : str)
  | CSave (dom conf : str)
  | CAddElement (dom path : str)
  | CRemoveElement (dom path : str)
  | CSplit (dom path : str)
  | CSequence (dom conf : str) (paths : list str)
  | CSetRule (dom conf text : str)
  | CClearRule (dom conf : str)
  | CApply (need : list nat)
  | CCriterion (i : nat) (v : Z)
  | CHandleSet (p : pos) (v : hval)
  | CHandleBytes (p : pos) (bytes : list byte).

(** Commands of the tuning interface (the others are calls of the client). *)
Definition tuning_command (c : cmd) : bool :=
  match c with CApply _ | CCriterion _ _ | CHandleSet _ _ | CHandleBytes _ _ => false | _ => true end.

Definition on_doms (m : mgr) (o : outcome (bool * domains)) : outcome (bool * mgr) :=
  do x <- o; Ok (fst x, with_doms m (snd x)).

(** Commands on an element given by its path. *)
Definition on_located (y : system) (path : str) (m : mgr) (f : list nat -> outcome (bool * domains)) : outcome (bool * mgr) :=
  match locate (sy_root y) path with
  | None => Ok (false, m)
  | Some p => on_doms m (f p)
  end.

(** ParameterMgr.cpp checkTuningModeOn. *)
Definition tuned (m : mgr) (k : outcome (bool * mgr)) : outcome (bool * mgr) :=
  if mg_tuning m then k else Ok (false, m).

(** ParameterMgr.cpp:1959-2536, one command: whether it succeeded, and the state after. *)
Definition step (y : system) (m : mgr) (c : cmd) : outcome (bool * mgr) :=
  let s := mg_doms m in
  match c with
  | CSetParameter path v => tuned m (set_live y path v m)
  | CSetConfigParameter dom conf path v => set_recorded y dom conf path v m
  | CTuning on need => set_tuning y on need m
  | CAutoSync on => Ok (set_autosync y on m)
  | CSync => Ok (do_sync y m)
  | CValueSpace raw => Ok (true, with_raw m raw)
  | COutputFormat hex => Ok (true, with_hex m hex)
  | CCreateDomain n => tuned m (on_doms m (Ok (ds_create n s)))
  | CDeleteDomain n => tuned m (on_doms m (Ok (ds_delete n s)))
  | CDeleteAllDomains => tuned m (on_doms m (Ok (true, ds_delete_all s)))
  | CRenameDomain n new => on_doms m (Ok (ds_rename n new s))
  | CSequenceAware d b => tuned m (on_doms m (ds_set_aware d b s))
  | CCreateConfig d n => tuned m (on_doms m (ds_create_config y d n (mg_main m) s))
  | CDeleteConfig d n => tuned m (on_doms m (ds_delete_config d n s))
  | CRenameConfig d n new => on_doms m (ds_rename_config d n new s)
  | CRestore d n =>
      tuned m (do x <- ds_restore y d n (mg_autosync m) s (mg_main m) (mg_trace m);
               let '(ok, s', bb, _, tr) := x in Ok (ok, with_trace (with_main (with_doms m s') bb) tr))
  | CSave d n => tuned m (on_doms m (ds_save y d n (mg_main m) s))
  | CAddElement d path => tuned m (on_located y path m (fun p => ds_add y d p (mg_main m) s))
  | CRemoveElement d path => tuned m (on_located y path m (fun p => ds_remove y d p s))
  | CSplit d path => tuned m (on_located y path m (fun p => ds_split y d p s))
  | CSequence d n paths => tuned m (on_doms m (ds_set_sequence y d n paths s))
  | CSetRule d n text => on_doms m (ds_set_rule (mg_crits m) d n text s)
  | CClearRule d n => on_doms m (ds_clear_rule d n s)
  | CApply need => do m' <- apply_configurations y need m; Ok (true, m')
  | CCriterion i v => Ok (true, with_crits m (crits_set (mg_crits m) i v))
  | CHandleSet p v => handle_set y p v m
  | CHandleBytes p bytes => handle_bytes y p bytes m
  end.

(** A history of commands. *)
Fixpoint run (y : system) (m : mgr) (cs : list cmd) : outcome (list bool * mgr) :=
  match cs with
  | [] => Ok ([], m)
  | c :: r => do x <- step y m c; do z <- run y (snd x) r; Ok (fst x :: fst z, snd z)
  end.
