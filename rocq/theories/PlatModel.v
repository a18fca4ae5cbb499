(** Model of the test platform (test/test-platform/TestPlatform.cpp): the process that creates criteria, starts the framework, sets
    the criteria and applies the configurations on the commands of a client.
    Simplifications: the text of the error of a failed start is given by the environment; a second start, which reads the structure
    into the same objects again, is outside of the model ([UB]); memory suffices for the states of a criterion; assertions are not
    there in a release build. *)
From Coq Require Import List Arith ZArith Bool Ascii String.
From Verif Require Import Base TextModel ParamTypeModel BlackboardModel TreeModel CriterionModel SyncModel DomainModel MgrModel LoadModel RemoteModel CommandModel CapiModel.
Import ListNotations.
Local Open Scope nat_scope.

(** ParameterMgr.h:866, 895-907: what a client can set before the start. *)
Record policies := Policies { po_missing : bool; po_settings : bool; po_schemas : bool; po_uri : str }.

(** TestPlatform.h:150-163, ParameterMgrPlatformConnector.h: the manager, _bStarted, and whether the server still runs.
    [pl_loaded]: a start was attempted. *)
Record plat := Plat { pl_sys : system; pl_mgr : mgr; pl_loaded : bool; pl_started : bool; pl_policies : policies; pl_open : bool }.

(** TestPlatform.cpp:43-47, ParameterMgrPlatformConnector.cpp:38-44. *)
Definition p_new : plat := Plat empty_system (fresh_mgr [] (Domains [] [] 0) [] false) false false (Policies true true false []) true.

Definition with_state (p : plat) (m : mgr) : plat := Plat (pl_sys p) m (pl_loaded p) (pl_started p) (pl_policies p) (pl_open p).
Definition with_criteria (p : plat) (cs : list criterion) : plat := with_state p (with_crits (pl_mgr p) cs).
Definition with_policies (p : plat) (o : policies) : plat := Plat (pl_sys p) (pl_mgr p) (pl_loaded p) (pl_started p) o (pl_open p).

(** What is around: what the files lead to under the policies and the criteria, the text of the error of a failed start, and the
    subsystems that ask for a resynchronisation. *)
Record surroundings := Around { su_files : policies -> files; su_error : str; su_need : list nat }.

(** What a handler returns (RemoteCommandHandlerTemplate.h:48-55) with the text. *)
Inductive result := RDone | RSucceeded (text : str) | RUsage | RFailed (text : str).

(** SelectionCriterionType.cpp:57-89: the texts of the errors of addValuePair; std::hex << int; the type has no name. *)
Definition hex_text (v : Z) : str := map lower_hex (print_base 16 (v mod 2 ^ 32)).
Definition pair_error (t : crit_type) (v : Z) (l : str) : str :=
  let tail := hex_text v ++ lit " - " ++ l ++ lit " for Selection Criterion Type " in
  if cty_incl t && ((v =? 0)%Z || negb (Z.land v (v - 1) =? 0)%Z) then lit "Rejecting value pair association: 0x" ++ tail
  else match map_find l (cty_map t) with
       | Some _ => lit "Rejecting value pair association (literal already present): 0x" ++ tail
       | None => lit "Rejecting value pair association (numerical already present): 0x" ++ tail
       end.

(** TestPlatform.cpp:272-283, 300-310, 325-340, 355-369: the loop on the states, from number [i].  int(state), or 0x1 << state: no
    int has that value for the 32nd state (addValuePair computes the smallest int minus one) and the shift is undefined for the
    next ones.  The result is the type, or the text of the error. *)
Fixpoint add_states (incl : bool) (i : Z) (vs : list str) (t : crit_type) : outcome (crit_type + str) :=
  match vs with
  | [] => Ok (inl t)
  | v :: r =>
      if incl && (31 <=? i)%Z then UB
      else
        let n := if incl then Z.shiftl 1 i else to_ctype t_int32 i in
        match cty_add t n v with
        | Ok t' => add_states incl (i + 1) r t'
        | Err => Ok (inr (lit "Unable to add value: " ++ v ++ lit ": " ++ pair_error t n v))
        | Abort => Abort
        | UB => UB
        end
  end.

(** TestPlatform.cpp:260-372: the states are added to a new type, then the criterion is created. *)
Definition create (incl : bool) (name : str) (states : list str) (p : plat) : outcome (result * plat) :=
  do x <- add_states incl 0 states (cty_new incl);
  Ok (match x with
      | inl t => (RDone, with_criteria p (crits_create (mg_crits (pl_mgr p)) name t))
      | inr e => (RFailed e, p)
      end).

(** TestPlatform.cpp:327-330, 357-360: "State_" << state, "State_0x" << (0x1 << state), in decimal both. *)
Definition state_name (incl : bool) (i : nat) : str :=
  if incl then lit "State_0x" ++ print_dec (Z.shiftl 1 (Z.of_nat i)) else lit "State_" ++ print_dec (Z.of_nat i).
Definition state_names (incl : bool) (n : nat) : list str := map (state_name incl) (seq 0 n).

(** The arguments of a command. *)
Definition handler := surroundings -> list str -> plat -> outcome (result * plat).

(** TestPlatform.cpp:141-157, 260-316. *)
Definition h_create_list (incl : bool) : handler := fun _ args p => do n <- arg args 0; create incl n (skipn 1 args) p.

(** TestPlatform.cpp:159-177, 318-372: strtoul with base 0 (64 bits). *)
Definition h_create_count (incl : bool) : handler :=
  fun _ args p => do n <- arg args 0; do c <- arg args 1; create incl n (state_names incl (Z.to_nat (strtoull0 c))) p.

(** TestPlatform.cpp:179-185, ParameterMgrPlatformConnector.cpp:173-185. *)
Definition h_start : handler :=
  fun su _ p =>
    if pl_loaded p then UB
    else do i <- load_instance (mg_crits (pl_mgr p)) (su_files su (pl_policies p) (mg_crits (pl_mgr p)));
         Ok (if in_started i then RDone else RFailed (su_error su),
             Plat (in_sys i) (in_mgr i) true (in_started i) (pl_policies p) (pl_open p)).

(** TestPlatform.cpp:187-203, ParameterMgrPlatformConnector.cpp:107-165. *)
Definition h_set_policy (set : bool -> policies -> policies) (running : str) : handler :=
  fun _ args p =>
    do a <- arg args 0;
    Ok (match convert_bool a with
        | None => (RUsage, p)
        | Some b => if pl_started p then (RFailed running, p) else (RDone, with_policies p (set b (pl_policies p)))
        end).

(** TestPlatform.cpp:205-212. *)
Definition h_get_policy (get : policies -> bool) : handler :=
  fun _ _ p => Ok (RSucceeded (if get (pl_policies p) then lit "true" else lit "false"), p).

(** TestPlatform.cpp:214-226: the text of getSchemaUri is replaced by the answer of EDone (RemoteCommandHandlerTemplate.h:91-92). *)
Definition h_get_uri : handler := fun _ _ p => Ok (RDone, p).
Definition h_set_uri : handler :=
  fun _ args p => do a <- arg args 0;
    Ok (RDone, with_policies p (Policies (po_missing (pl_policies p)) (po_settings (pl_policies p)) (po_schemas (pl_policies p)) a)).

(** The state of a criterion set (SelectionCriterion.cpp:63-86; the uint32_t of line 388 becomes an int). *)
Definition set_state (p : plat) (i : nat) (v : Z) : plat := with_criteria p (crits_set (mg_crits (pl_mgr p)) i (to_ctype t_int32 v)).
Definition no_criterion (n : str) : result := RFailed (lit "Unable to retrieve selection criterion: " ++ n).

(** TestPlatform.cpp:394-444 setCriterionStateByLexicalSpace; the positions are those of the criteria. *)
Definition set_lexical (args : list str) (p : plat) : outcome (result * plat) :=
  do n <- arg args 0;
  match crits_find (mg_crits (pl_mgr p)) n with
  | None => Ok (no_criterion n, p)
  | Some i =>
      match nth_error (mg_crits (pl_mgr p)) i with
      | None => UB
      | Some c =>
          if negb (cty_incl (cr_type c)) && negb (List.length (skipn 1 args) =? 1) then
            Ok (RFailed (lit "Exclusive criterion " ++ n ++ lit " can only have one state"), p)
          else
            let s := join (lit "|") (skipn 1 args) in
            match cty_numerical (cr_type c) s with
            | None => Ok (RFailed (lit "Unable to find lexical state """ ++ s ++ lit """ in criteria " ++ n), p)
            | Some v => Ok (RDone, set_state p i v)
            end
      end
  end.

(** TestPlatform.cpp:228-246 and 374-392 setCriterionState: by number if the first state is the text of a number of 32 bits. *)
Definition h_set_state : handler :=
  fun _ args p =>
    do a <- arg args 1;
    match convertTo t_uint32 a with
    | None => set_lexical args p
    | Some v =>
        do n <- arg args 0;
        Ok (match crits_find (mg_crits (pl_mgr p)) n with
            | None => (no_criterion n, p)
            | Some i => (RDone, set_state p i v)
            end)
    end.

(** TestPlatform.cpp:248-254, ParameterMgrPlatformConnector.cpp:68-73. *)
Definition h_apply : handler :=
  fun su _ p => do x <- step (pl_sys p) (pl_mgr p) (CApply (su_need su)); Ok (RDone, with_state p (snd x)).

(** TestPlatform.cpp:53-59. *)
Definition h_exit : handler :=
  fun _ _ p => Ok (RDone, Plat (pl_sys p) (pl_mgr p) (pl_loaded p) (pl_started p) (pl_policies p) false).

(** TestPlatform.cpp:72-133, after "help" (RemoteCommandHandlerTemplate.h:117-118, handled apart). *)
Record pentry := PEntry { pe_name : str; pe_min : nat; pe_help : str; pe_about : str; pe_do : handler }.
Definition entry_of (name : string) (n : nat) (help about : string) (h : handler) : pentry := PEntry (lit name) n (lit help) (lit about) h.

Definition ptable : list pentry := [
  entry_of "help" 0 "" "Show commands description and usage" (fun _ _ p => Ok (RDone, p));
  entry_of "exit" 0 "" "Exit TestPlatform" h_exit;
  entry_of "createExclusiveSelectionCriterionFromStateList" 2 "<name> <stateList>"
    "Create inclusive selection criterion from state name list" (h_create_list false);
  entry_of "createInclusiveSelectionCriterionFromStateList" 2 "<name> <stateList>"
    "Create exclusive selection criterion from state name list" (h_create_list true);
  entry_of "createExclusiveSelectionCriterion" 2 "<name> <nbStates>" "Create inclusive selection criterion" (h_create_count false);
  entry_of "createInclusiveSelectionCriterion" 2 "<name> <nbStates>" "Create exclusive selection criterion" (h_create_count true);
  entry_of "start" 0 "" "Start ParameterMgr" h_start;
  entry_of "setCriterionState" 2 "<name> <state>" "Set the current state of a selection criterion" h_set_state;
  entry_of "applyConfigurations" 0 "" "Apply configurations selected by current selection criteria states" h_apply;
  entry_of "setFailureOnMissingSubsystem" 1 "true|false" "Set policy for missing subsystems, either abort start or fallback on virtual subsystem."
    (h_set_policy (fun b o => Policies b (po_settings o) (po_schemas o) (po_uri o)) (lit "Can not set missing subsystem policy while running"));
  entry_of "getMissingSubsystemPolicy" 0 "" "Get policy for missing subsystems, either abort start or fallback on virtual subsystem." (h_get_policy po_missing);
  entry_of "setFailureOnFailedSettingsLoad" 1 "true|false" "Set policy for failed settings load, either abort start or continue without domains."
    (h_set_policy (fun b o => Policies (po_missing o) b (po_schemas o) (po_uri o)) (lit "Can not set failure on failed settings load policy while running"));
  entry_of "getFailedSettingsLoadPolicy" 0 "" "Get policy for failed settings load, either abort start or continue without domains." (h_get_policy po_settings);
  entry_of "setValidateSchemasOnStart" 1 "true|false" "Set policy for schema validation based on .xsd files (false by default)."
    (h_set_policy (fun b o => Policies (po_missing o) (po_settings o) b (po_uri o)) (lit "Can not enable xml validation after the start of the parameter-framework"));
  entry_of "getValidateSchemasOnStart" 0 "" "Get policy for schema validation based on .xsd files." (h_get_policy po_schemas);
  entry_of "getSchemaUri" 0 "" "Get the directory where schemas can be found." h_get_uri;
  entry_of "setSchemaUri" 1 "<directory>" "Set the directory where schemas can be found." h_set_uri
].

Definition pfind (name : str) : option pentry := find (fun e => str_eqb (pe_name e) name) ptable.
Definition pusage (e : pentry) : str := pe_name e ++ lit " " ++ pe_help e.

(** RemoteCommandHandlerTemplate.h:175-208 initMaxCommandUsageLength, helpCommandProcess. *)
Definition phelp : str :=
  let width := fold_left Nat.max (map (fun e => List.length (pusage e)) ptable) 0 in
  flat_map (fun e => pusage e ++ repeat " "%char (width + 5 - List.length (pusage e)) ++ lit "=> " ++ pe_about e ++ [ascii_of_nat 10]) ptable.

(** RemoteCommandHandlerTemplate.h:79-104 parse and 146-168 remoteCommandProcess. *)
Definition pprocess (su : surroundings) (p : plat) (q : request) : outcome (RemoteModel.answer * plat) :=
  match pfind (rq_command q) with
  | None => Ok (Answer (lit "Command not found!" ++ ascii_of_nat 10 :: lit "Use ""help"" to show available commands") false, p)
  | Some e =>
      if str_eqb (rq_command q) (lit "help") then Ok (Answer phelp true, p)
      else if List.length (rq_args q) <? pe_min e then
        Ok (Answer (lit "Not enough arguments supplied" ++ ascii_of_nat 10 :: lit "Usage:" ++ ascii_of_nat 10 :: pusage e) false, p)
      else
        do x <- pe_do e su (rq_args q) p;
        Ok (match fst x with
            | RDone => Answer (lit "Done") true
            | RSucceeded t => Answer t true
            | RUsage => Answer (pusage e) false
            | RFailed t => Answer t false
            end, snd x)
  end.

(** What happens to the platform: a request of its client, or a command received by the remote server of the framework once
    started.  Nothing is received after the exit. *)
Inductive pevent := EvRequest (su : surroundings) (q : request) | EvTune (c : cmd).

Definition pstep (p : plat) (v : pevent) : outcome (RemoteModel.answer * plat) :=
  match v with
  | EvRequest su q => if pl_open p then pprocess su p q else Ok (Answer [] false, p)
  | EvTune c =>
      if pl_started p && tuning_command c then
        do x <- step (pl_sys p) (pl_mgr p) c; Ok (Answer [] (fst x), with_state p (snd x))
      else Ok (Answer [] false, p)
  end.

Fixpoint psession (p : plat) (vs : list pevent) : outcome (list RemoteModel.answer * plat) :=
  match vs with
  | [] => Ok ([], p)
  | v :: r => do x <- pstep p v; do z <- psession (snd x) r; Ok (fst x :: fst z, snd z)
  end.
