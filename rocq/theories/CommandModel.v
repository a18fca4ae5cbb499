(** Model of the remote commands: the dispatch of a request to the parameter manager
    (remote-processor/RemoteCommandHandlerTemplate.h, parameter/ParameterMgr.cpp:150-323 and 859-1956). *)
From Coq Require Import List Arith ZArith Bool Ascii String.
From Verif Require Import Base TextModel BlackboardModel TreeModel CriterionModel RuleModel SyncModel DomainModel MgrModel RemoteModel.
Import ListNotations.
Local Open Scope nat_scope.

(** ** Arguments *)

(** RequestMessage.cpp:75-80 getArgument: the assertion is not there in a release build; operator[] past the end is undefined
    behaviour. *)
Definition arg (args : list str) (i : nat) : outcome str :=
  match nth_error args i with Some a => Ok a | None => UB end.

(** RequestMessage.cpp:82-88 packArguments(start, getArgumentCount() - start). *)
Definition pack (args : list str) (start : nat) : outcome str :=
  if start <=? List.length args then Ok (join (lit " ") (skipn start args)) else UB.

(** ::toupper in the C locale. *)
Definition to_upper (c : ascii) : ascii :=
  let z := bval c in if ((97 <=? z) && (z <=? 122))%Z then byte_of (z - 32)%Z else c.

(** ** What a handler asks for *)

(** The answers given in a text. *)
Inductive query :=
  | QTuning | QValueSpace | QFormat | QAutoSync
  | QAware (dom : str)
  | QDomains | QConfigs (dom : str) | QElements (dom : str) | QSequence (dom conf : str) | QRule (dom conf : str)
  | QParameter (path : str)
  | QConfigParameter (dom conf path : str)
  | QBytes (path : str)
  | QSize (path : str)
  (* the answers whose text is not modelled: the command, and the arguments that it uses *)
  | QOther (command : str) (args : list str).

(** What comes from XML: importDomainsXml, importSingleDomainXml, setSettingsAsXML. *)
Inductive import :=
  | IDomains (source : str) (settings file : bool)
  | IDomain (source : str) (overwrite settings file : bool)
  | IElement (path text : str).

Inductive action :=
  | ADo (c : cmd)
  | AQuery (q : query)
  (* exports to a file: like a query, answered "Done" *)
  | AExport (command : str) (args : list str)
  | AImport (i : import)
  | ABytes (path : str) (values : list str)
  | AUsage.

(** ParameterMgr.cpp:859-1956, the *CommandProcess functions: how each of them uses the arguments.  [need]: the subsystems that
    ask for a resynchronisation while the command runs. *)
Record entry := Entry { en_name : str; en_min : nat; en_help : str; en_plan : list nat -> list str -> outcome action }.

Definition no_arg (a : action) : list nat -> list str -> outcome action := fun _ _ => Ok a.
Definition one_arg (f : str -> action) : list nat -> list str -> outcome action := fun _ args => do a <- arg args 0; Ok (f a).
Definition two_args (f : str -> str -> action) : list nat -> list str -> outcome action :=
  fun _ args => do a <- arg args 0; do b <- arg args 1; Ok (f a b).
Definition three_args (f : str -> str -> str -> action) : list nat -> list str -> outcome action :=
  fun _ args => do a <- arg args 0; do b <- arg args 1; do c <- arg args 2; Ok (f a b c).

(** A switch: 928-945, 963-980, 998-1015, 1033-1050. *)
Definition switch (i : nat) (yes no : str) (f : list nat -> list str -> bool -> outcome action) : list nat -> list str -> outcome action :=
  fun need args => do a <- arg args i; if str_eqb a yes then f need args true else if str_eqb a no then f need args false else Ok AUsage.

(** 1069-1112 listCriteria. *)
Definition plan_list_criteria (_ : list nat) (args : list str) : outcome action :=
  if 1 <? List.length args then Ok AUsage
  else if List.length args =? 1 then
    do a <- arg args 0;
    let u := map to_upper a in
    if str_eqb u (lit "XML") || str_eqb u (lit "CSV") then Ok (AQuery (QOther (lit "listCriteria") [u])) else Ok AUsage
  else Ok (AQuery (QOther (lit "listCriteria") [])).

(** 1888-1907 importDomainWithSettingsXML, 1933-1953 setDomainWithSettingsXML. *)
Definition plan_import_domain (file : bool) (_ : list nat) (args : list str) : outcome action :=
  if 1 <? List.length args then
    do o <- arg args 1;
    if str_eqb o (lit "overwrite") then do a <- arg args 0; Ok (AImport (IDomain a true true file)) else Ok AUsage
  else do a <- arg args 0; Ok (AImport (IDomain a false true file)).

Definition other (name : string) (n : nat) (help : string) : entry :=
  Entry (lit name) n (lit help) (match n with
    | 0 => no_arg (AQuery (QOther (lit name) []))
    | _ => one_arg (fun a => AQuery (QOther (lit name) [a]))
    end).

(** 150-323 gastRemoteCommandParserItems, after the "help" command of RemoteCommandHandlerTemplate.h:117-118. *)
Definition table : list entry := [
  Entry (lit "help") 0 [] (no_arg (AQuery (QOther (lit "help") [])));
  other "version" 0 "";
  other "status" 0 "";
  Entry (lit "setTuningMode") 1 (lit "on|off*") (switch 0 (lit "on") (lit "off") (fun need _ b => Ok (ADo (CTuning b need))));
  Entry (lit "getTuningMode") 0 [] (no_arg (AQuery QTuning));
  Entry (lit "setValueSpace") 1 (lit "raw|real*") (switch 0 (lit "raw") (lit "real") (fun _ _ b => Ok (ADo (CValueSpace b))));
  Entry (lit "getValueSpace") 0 [] (no_arg (AQuery QValueSpace));
  Entry (lit "setOutputRawFormat") 1 (lit "dec*|hex") (switch 0 (lit "hex") (lit "dec") (fun _ _ b => Ok (ADo (COutputFormat b))));
  Entry (lit "getOutputRawFormat") 0 [] (no_arg (AQuery QFormat));
  Entry (lit "setAutoSync") 1 (lit "on*|off") (switch 0 (lit "on") (lit "off") (fun _ _ b => Ok (ADo (CAutoSync b))));
  Entry (lit "getAutoSync") 0 [] (no_arg (AQuery QAutoSync));
  Entry (lit "sync") 0 [] (no_arg (ADo CSync));
  Entry (lit "listCriteria") 0 (lit "[CSV|XML]") plan_list_criteria;
  Entry (lit "listDomains") 0 [] (no_arg (AQuery QDomains));
  other "dumpDomains" 0 "";
  Entry (lit "createDomain") 1 (lit "<domain>") (one_arg (fun d => ADo (CCreateDomain d)));
  Entry (lit "deleteDomain") 1 (lit "<domain>") (one_arg (fun d => ADo (CDeleteDomain d)));
  Entry (lit "deleteAllDomains") 0 [] (no_arg (ADo CDeleteAllDomains));
  Entry (lit "renameDomain") 2 (lit "<domain> <new name>") (two_args (fun d n => ADo (CRenameDomain d n)));
  (* 1147-1171: one argument is enough for the table, the second one is read *)
  Entry (lit "setSequenceAwareness") 1 (lit "<domain> true|false*")
    (switch 1 (lit "true") (lit "false") (fun _ args b => do d <- arg args 0; Ok (ADo (CSequenceAware d b))));
  Entry (lit "getSequenceAwareness") 1 (lit "<domain>") (one_arg (fun d => AQuery (QAware d)));
  Entry (lit "listDomainElements") 1 (lit "<domain>") (one_arg (fun d => AQuery (QElements d)));
  Entry (lit "addElement") 2 (lit "<domain> <elem path>") (two_args (fun d p => ADo (CAddElement d p)));
  Entry (lit "removeElement") 2 (lit "<domain> <elem path>") (two_args (fun d p => ADo (CRemoveElement d p)));
  Entry (lit "splitDomain") 2 (lit "<domain> <elem path>") (two_args (fun d p => ADo (CSplit d p)));
  Entry (lit "listConfigurations") 1 (lit "<domain>") (one_arg (fun d => AQuery (QConfigs d)));
  Entry (lit "createConfiguration") 2 (lit "<domain> <configuration>") (two_args (fun d c => ADo (CCreateConfig d c)));
  Entry (lit "deleteConfiguration") 2 (lit "<domain> <configuration>") (two_args (fun d c => ADo (CDeleteConfig d c)));
  Entry (lit "renameConfiguration") 3 (lit "<domain> <configuration> <new name>") (three_args (fun d c n => ADo (CRenameConfig d c n)));
  Entry (lit "saveConfiguration") 2 (lit "<domain> <configuration>") (two_args (fun d c => ADo (CSave d c)));
  Entry (lit "restoreConfiguration") 2 (lit "<domain> <configuration>") (two_args (fun d c => ADo (CRestore d c)));
  (* 1293-1312 *)
  Entry (lit "setElementSequence") 3 (lit "<domain> <configuration> <elem path list>")
    (fun _ args => do d <- arg args 0; do c <- arg args 1; Ok (ADo (CSequence d c (skipn 2 args))));
  Entry (lit "getElementSequence") 2 (lit "<domain> <configuration>") (two_args (fun d c => AQuery (QSequence d c)));
  Entry (lit "setRule") 3 (lit "<domain> <configuration> <rule>")
    (fun _ args => do d <- arg args 0; do c <- arg args 1; do r <- pack args 2; Ok (ADo (CSetRule d c r)));
  Entry (lit "clearRule") 2 (lit "<domain> <configuration>") (two_args (fun d c => ADo (CClearRule d c)));
  Entry (lit "getRule") 2 (lit "<domain> <configuration>") (two_args (fun d c => AQuery (QRule d c)));
  other "listElements" 1 "<elem path>|/";
  other "listParameters" 1 "<elem path>|/";
  other "getElementStructureXML" 1 "<elem path>";
  Entry (lit "getElementBytes") 1 (lit "<elem path>") (one_arg (fun p => AQuery (QBytes p)));
  Entry (lit "setElementBytes") 2 (lit "<elem path> <values>") (fun _ args => do p <- arg args 0; Ok (ABytes p (skipn 1 args)));
  other "getElementXML" 1 "<elem path>";
  Entry (lit "setElementXML") 2 (lit "<elem path> <values>") (two_args (fun p x => AImport (IElement p x)));
  other "dumpElement" 1 "<elem path>";
  Entry (lit "getElementSize") 1 (lit "<elem path>") (one_arg (fun p => AQuery (QSize p)));
  other "showProperties" 1 "<elem path>";
  Entry (lit "getParameter") 1 (lit "<param path>") (one_arg (fun p => AQuery (QParameter p)));
  Entry (lit "setParameter") 2 (lit "<param path> <value>") (fun _ args => do v <- pack args 1; do p <- arg args 0; Ok (ADo (CSetParameter p v)));
  other "listBelongingDomains" 1 "<elem path>";
  other "listAssociatedDomains" 1 "<elem path>";
  Entry (lit "getConfigurationParameter") 3 (lit "<domain> <configuration> <param path>") (three_args (fun d c p => AQuery (QConfigParameter d c p)));
  Entry (lit "setConfigurationParameter") 4 (lit "<domain> <configuration> <param path> <value>")
    (fun _ args => do v <- pack args 3; do d <- arg args 0; do c <- arg args 1; do p <- arg args 2; Ok (ADo (CSetConfigParameter d c p v)));
  other "showMapping" 1 "<elem path>";
  other "listAssociatedElements" 0 "";
  other "listConflictingElements" 0 "";
  other "listRogueElements" 0 "";
  Entry (lit "exportDomainsXML") 1 (lit "<file path> ") (one_arg (fun f => AExport (lit "exportDomainsXML") [f]));
  Entry (lit "importDomainsXML") 1 (lit "<file path>") (one_arg (fun f => AImport (IDomains f false true)));
  Entry (lit "exportDomainsWithSettingsXML") 1 (lit "<file path> ") (one_arg (fun f => AExport (lit "exportDomainsWithSettingsXML") [f]));
  Entry (lit "exportDomainWithSettingsXML") 2 (lit "<domain> <file path> ") (two_args (fun d f => AExport (lit "exportDomainWithSettingsXML") [d; f]));
  Entry (lit "importDomainsWithSettingsXML") 1 (lit "<file path>") (one_arg (fun f => AImport (IDomains f true true)));
  Entry (lit "importDomainWithSettingsXML") 1 (lit "<file path> [overwrite]") (plan_import_domain true);
  other "getDomainsWithSettingsXML" 0 "";
  other "getDomainWithSettingsXML" 1 "<domain>";
  Entry (lit "setDomainsWithSettingsXML") 1 (lit "<xml configurable domains>") (one_arg (fun x => AImport (IDomains x true false)));
  Entry (lit "setDomainWithSettingsXML") 1 (lit "<xml configurable domain> [overwrite]") (plan_import_domain false);
  other "getSystemClassXML" 0 "";
  other "getDomainsXML" 0 ""
].

(** RemoteCommandHandlerTemplate.h:214-230 findCommandParserItem. *)
Definition find_entry (name : str) : option entry := find (fun e => str_eqb (en_name e) name) table.

(** ** What the handlers do *)

(** What is not modelled: the texts of some answers ([None]: the command fails) and of the errors, and the imports. *)
Record environment := Env {
  ev_need : list nat;
  ev_text : str -> list str -> mgr -> option str;
  ev_error : request -> mgr -> str;
  ev_import : import -> mgr -> outcome (bool * mgr)
}.

(** CommandStatus, RemoteCommandHandlerTemplate.h:48-55. *)
Inductive cstatus := StDone | StSucceeded (text : str) | StUsage | StFailed.

(** 1449-1465: "0x" << std::setw(2) << byte << " ", the last space removed. *)
Definition byte_text (b : byte) : str := lit "0x" ++ pad0 2 (map Verif.ParamTypeModel.lower_hex (print_base 16 (bval b))).
Definition bytes_text (bytes : list byte) : str := join (lit " ") (map byte_text bytes).

Definition lines (l : list str) : str := flat_map (fun s => s ++ [ascii_of_nat 10]) l.

Definition on_off (b : bool) : str := if b then lit "on" else lit "off".

(** What a query answers; [None]: it fails. *)
Definition found {A} (o : option A) (f : A -> str) : outcome (option str) := Ok (match o with Some a => Some (f a) | None => None end).

(** A function that returns an error ([Err]) makes the command fail. *)
Definition answered (o : outcome str) : outcome (option str) :=
  match o with Ok s => Ok (Some s) | Err => Ok None | Abort => Abort | UB => UB end.

Definition ask (y : system) (ev : environment) (q : query) (m : mgr) : outcome (option str) :=
  match q with
  (* 948-954, 983-989, 1018-1024, 1053-1059 *)
  | QTuning => Ok (Some (on_off (mg_tuning m)))
  | QValueSpace => Ok (Some (if mg_raw m then lit "raw" else lit "real"))
  | QFormat => Ok (Some (if mg_hex m then lit "hex" else lit "dec"))
  | QAutoSync => Ok (Some (on_off (mg_autosync m)))
  (* 1173-1187 *)
  | QAware d => found (ds_find d (mg_doms m)) (fun x => if dm_aware x then lit "true" else lit "false")
  (* ConfigurableDomains.cpp:366-386 *)
  | QDomains => Ok (Some (lines (map (fun d => dm_name d ++ if dm_aware d then lit " [sequence aware]" else []) (ds_list (mg_doms m)))))
  (* ConfigurableDomains.cpp:224-236, Element.cpp:334-341 *)
  | QConfigs d => found (ds_find d (mg_doms m)) (fun x => lines (map cf_name (dm_configs x)))
  (* ConfigurableDomain.cpp:687-698 *)
  | QElements d => found (ds_find d (mg_doms m)) (fun x => lines (map (path_in (sy_root y)) (dm_elems x)))
  (* DomainConfiguration.cpp:260-267 *)
  | QSequence d c => found (match ds_find d (mg_doms m) with Some x => dm_find c x | None => None end)
                           (fun x => ascii_of_nat 10 :: lines (map (fun a => path_in (sy_root y) (ar_pos a)) (cf_areas x)))
  (* DomainConfiguration.cpp:294-298 *)
  | QRule d c => found (match ds_find d (mg_doms m) with Some x => dm_find c x | None => None end)
                       (fun x => get_application_rule (mg_crits m) (cf_rule x))
  (* 1679-1693 *)
  | QParameter p => answered (get_parameter y p m)
  (* 1776-1793 *)
  | QConfigParameter d c p => answered (get_recorded y d c p m)
  (* 1430-1468 *)
  | QBytes p => match locate (sy_root y) p with
                | Some q => answered (omap bytes_text (get_bytes (sy_root y) q 0 (mg_main m)))
                | None => Ok None
                end
  (* 1640-1660, ConfigurableElement.cpp:511-515 *)
  | QSize p => found (match locate (sy_root y) p with Some q => elem_at (sy_root y) q | None => None end)
                     (fun e => print_dec (Z.of_nat (footprint e)) ++ lit " byte(s)")
  | QOther name args => Ok (ev_text ev name args m)
  end.

(** 1470-1521 setElementBytes: the bytes are written from the beginning of an empty vector; the first value is converted before. *)
Definition set_element_bytes (y : system) (path : str) (values : list str) (m : mgr) : outcome (cstatus * mgr) :=
  if mg_tuning m then
    match locate (sy_root y) path with
    | None => Ok (StFailed, m)
    | Some p =>
        match values with
        | v :: _ => match convertTo (CType false 1) v with Some _ => UB | None => Ok (StFailed, m) end
        | [] => do x <- handle_bytes y p [] m; Ok (if fst x then StDone else StFailed, snd x)
        end
    end
  else Ok (StFailed, m).

Definition done (o : outcome (bool * mgr)) : outcome (cstatus * mgr) :=
  do x <- o; Ok (if fst x then StDone else StFailed, snd x).

Definition execute (y : system) (ev : environment) (a : action) (m : mgr) : outcome (cstatus * mgr) :=
  match a with
  | ADo c => done (step y m c)
  | AQuery q => do o <- ask y ev q m; Ok (match o with Some t => StSucceeded t | None => StFailed end, m)
  | AExport name args => Ok (match ev_text ev name args m with Some _ => StDone | None => StFailed end, m)
  (* 1597-1618: setElementXML is for the tuning mode *)
  | AImport (IElement p x) =>
      if mg_tuning m then match locate (sy_root y) p with Some _ => done (ev_import ev (IElement p x) m) | None => Ok (StFailed, m) end
      else Ok (StFailed, m)
  | AImport i => done (ev_import ev i m)
  | ABytes p vs => set_element_bytes y p vs m
  | AUsage => Ok (StUsage, m)
  end.

Definition usage (e : entry) : str := en_name e ++ lit " " ++ en_help e.

(** RemoteCommandHandlerTemplate.h:79-104 parse and 146-168 remoteCommandProcess ("help" always succeeds). *)
Definition process (y : system) (ev : environment) (m : mgr) (q : request) : outcome (answer * mgr) :=
  match find_entry (rq_command q) with
  | None => Ok (Answer (lit "Command not found!" ++ ascii_of_nat 10 :: lit "Use ""help"" to show available commands") false, m)
  | Some e =>
      if str_eqb (rq_command q) (lit "help") then
        Ok (Answer (match ev_text ev (lit "help") [] m with Some t => t | None => [] end) true, m)
      else if List.length (rq_args q) <? en_min e then
        Ok (Answer (lit "Not enough arguments supplied" ++ ascii_of_nat 10 :: lit "Usage:" ++ ascii_of_nat 10 :: usage e) false, m)
      else
        do a <- en_plan e (ev_need ev) (rq_args q);
        do x <- execute y ev a m;
        Ok (match fst x with
            | StDone => Answer (lit "Done") true
            | StSucceeded t => Answer t true
            | StUsage => Answer (usage e) false
            | StFailed => Answer (ev_error ev q m) false
            end, snd x)
  end.
