(** Model of the texts that the remote commands answer: listings, status, dumps, criteria, properties, help, and what they read from or
    write to XML. *)
From Coq Require Import List Arith ZArith Bool Ascii String.
From Verif Require Import Base TextModel ParamTypeModel BitModel BlackboardModel TreeModel CriterionModel RuleModel SyncModel DomainModel MgrModel
  XmlModel DomXmlModel StrucModel RemoteModel CommandModel.
Import ListNotations.
Local Open Scope nat_scope.

Definition nl : str := [ascii_of_nat 10].

(** utility/Utility.cpp:55-58 appendTitle: what is added. *)
Definition title (t : str) : str := nl ++ t ++ nl ++ repeat "="%char (List.length t) ++ nl.

(** ** Elements *)

(** Element.cpp:526-529 getQualifiedPath. *)
Definition qualified_path (root : elem) (p : pos) (e : elem) : str := path_in root p ++ lit " [" ++ kind_text (e_kind e) ++ lit "]".

(** Element.cpp:343-363 listQualifiedPaths. *)
Fixpoint qualified_paths (root : elem) (dive : bool) (level : nat) (e : elem) (p : pos) : str :=
  (if negb dive || (List.length (e_children e) =? 0) then qualified_path root p e ++ nl else [])
  ++ match e with
     | Elem _ _ cs =>
         if dive || (level =? 0) then
           (fix go (cs : list elem) (i : nat) : str :=
              match cs with [] => [] | c :: r => qualified_paths root dive (S level) c (p ++ [i]) ++ go r (S i) end) cs 0
         else []
     end.

(** Element.cpp:365-372 listChildrenPaths. *)
Definition children_paths (root e : elem) (p : pos) : str :=
  lines (map (fun i => path_in root (p ++ [i])) (seq 0 (List.length (e_children e)))).

(** ElementLocator.cpp:41-85 locate, not strict, and ParameterMgr.cpp:1353-1402: no item in the path is the root. *)
Definition locate_or_root (root : elem) (path : str) : option pos :=
  match path_items path with
  | Some [] => Some []
  | _ => locate root path
  end.

(** ** Dumps *)

(** An element as the dump sees it: getKind, getName, logValue, children. *)
Inductive dnode := DNode (kind name value : str) (children : list dnode).

(** Element.cpp:84-119 dumpContent. *)
Fixpoint dump_content (depth : nat) (n : dnode) : str :=
  match n with
  | DNode k nm v cs =>
      List.concat (repeat (lit "    ") depth) ++ lit "- " ++ k
      ++ (match nm with [] => [] | _ => lit ": " ++ nm end)
      ++ (match v with [] => [] | _ => lit " = " ++ v end)
      ++ nl ++ flat_map (dump_content (S depth)) cs
  end.

(** BaseParameter.cpp:79-86, ArrayParameter.cpp:170-175, Element.cpp:138-141 logValue, in the main memory. *)
Definition log_value (root : elem) (f : fmt) (bb : blackboard) (k : ekind) (p : pos) : outcome str :=
  if is_param k then leaf_get k f [] (offset root p) 0 bb else Ok [].

Fixpoint element_node (root : elem) (f : fmt) (bb : blackboard) (e : elem) (p : pos) : outcome dnode :=
  match e with
  | Elem n k cs =>
      do v <- log_value root f bb k p;
      do l <- (fix go (cs : list elem) (i : nat) : outcome (list dnode) :=
                 match cs with
                 | [] => Ok []
                 | c :: r => do x <- element_node root f bb c (p ++ [i]); do l <- go r (S i); Ok (x :: l)
                 end) cs 0;
      Ok (DNode (kind_text k) n v l)
  end.

(** CompoundRule.cpp:41-56, SelectionCriterionRule.cpp:49-58. *)
Fixpoint rule_node (cs : list criterion) (r : rule) : dnode :=
  match r with
  | RComp all l => DNode (lit "CompoundRule") [] (comp_text all) (map (rule_node cs) l)
  | RCrit c w v => DNode (lit "SelectionCriterionRule") [] (crit_dump cs c w v) []
  end.

(** DomainConfiguration.cpp:54-57: the rule is its only child. *)
Definition config_node (cs : list criterion) (c : config) : dnode :=
  DNode (lit "Configuration") (cf_name c) [] (match cf_rule c with Some r => [rule_node cs r] | None => [] end).

Definition none_text : str := lit "<none>".

(** ConfigurableDomain.cpp:846-853 getLastAppliedConfigurationName. *)
Definition last_name (d : domain) : str := match dm_last_config d with Some c => cf_name c | None => none_text end.

(** ConfigurableDomain.cpp:83-94 logValue. *)
Definition domain_node (cs : list criterion) (d : domain) : dnode :=
  DNode (lit "ConfigurableDomain") (dm_name d)
        (lit "{Sequence aware: " ++ (if dm_aware d then lit "yes" else lit "no") ++ lit ", Last applied configuration: " ++ last_name d ++ lit "}")
        (map (config_node cs) (dm_configs d)).
Definition domains_node (cs : list criterion) (s : domains) : dnode :=
  DNode (lit "ConfigurableDomains") [] [] (map (domain_node cs) (ds_list s)).

(** ** Domains of the elements *)

(** ConfigurableElement.cpp:575-601 listDomains: the names of the domains at these addresses (all alive: [domains_ok]). *)
Definition domain_name (s : domains) (id : nat) : str := match find (fun d => dm_id d =? id) (ds_list s) with Some d => dm_name d | None => [] end.
Definition vertical (s : domains) (ids : list nat) : str := lines (map (domain_name s) ids).
Definition horizontal (s : domains) (ids : list nat) : str := join (lit ", ") (map (domain_name s) ids).

(** ConfigurableDomains.cpp:388-402 gatherAllOwnedConfigurableElements, in a std::set of addresses.  [order]: the order of these. *)
Definition gathered_elements (order : list pos -> list pos) (s : domains) : list pos :=
  order (nodup (list_eq_dec Nat.eq_dec) (flat_map dm_elems (ds_list s))).

(** ConfigurableDomains.cpp:318-337 listAssociatedElements. *)
Definition associated_elements (order : list pos -> list pos) (y : system) (s : domains) : str :=
  lines (map (fun p => path_in (sy_root y) p ++ lit " [" ++ horizontal s (attached_to (ds_att s) p) ++ lit "]") (gathered_elements order s)).

(** ConfigurableDomains.cpp:339-364 listConflictingElements. *)
Definition conflicting_elements (order : list pos -> list pos) (y : system) (s : domains) : str :=
  lines (map (fun p => path_in (sy_root y) p ++ lit " contained in multiple domains: " ++ horizontal s (belonging_domains (ds_att s) p))
             (filter (fun p => 1 <? List.length (belonging_domains (ds_att s) p)) (gathered_elements order s))).

(** ** Criteria and status *)

(** SelectionCriterion.cpp:132-180 getFormattedDescription. *)
Definition described (with_type human : bool) (c : criterion) : str :=
  let t := cr_type c in
  let state := cty_formatted t (cr_state c) in
  if human then
    (if with_type then
       title (cr_name c ++ lit ":") ++ lit "Possible states (" ++ (if cty_incl t then lit "Inclusive" else lit "Exclusive") ++ lit "): "
       ++ cty_list t ++ nl ++ lit "Current state"
     else cr_name c)
    ++ lit " = " ++ state
  else
    lit "Criterion name: " ++ cr_name c
    ++ (if with_type then lit ", type kind: " ++ (if cty_incl t then lit "inclusive" else lit "exclusive") else [])
    ++ lit ", current state: " ++ state
    ++ (if with_type then lit ", states: " ++ cty_list t else []).

(** SelectionCriteriaDefinition.cpp:64-80 listSelectionCriteria and utility::asString. *)
Definition criteria_text (with_type human : bool) (cs : list criterion) : str := join nl (map (described with_type human) cs).

(** ConfigurableDomain.cpp:856-878 getPendingConfigurationName. *)
Definition pending_name (cs : list criterion) (d : domain) : str :=
  match dm_applicable cs d with
  | None => none_text
  | Some c => if is_last d c then [] else cf_name c
  end.

(** ConfigurableDomains.cpp:511-526 listLastAppliedConfigurations. *)
Definition last_applied_text (cs : list criterion) (s : domains) : str :=
  lines (map (fun d => dm_name d ++ lit ": " ++ last_name d ++ lit " [" ++ pending_name cs d ++ lit "]") (ds_list s)).

(** ParameterMgr.cpp:871-923 statusCommandProcess. *)
Definition status_text (y : system) (m : mgr) : str :=
  title (lit "General:")
  ++ lit "System Class: " ++ e_name (sy_root y) ++ nl
  ++ lit "Tuning Mode: " ++ on_off (mg_tuning m) ++ nl
  ++ lit "Value Space: " ++ (if mg_raw m then lit "raw" else lit "real") ++ nl
  ++ lit "Output Raw Format: " ++ (if mg_hex m then lit "hex" else lit "dec") ++ nl
  ++ lit "Auto Sync: " ++ on_off (mg_autosync m) ++ nl
  ++ title (lit "Subsystems:") ++ children_paths (sy_root y) (sy_root y) []
  ++ title (lit "Last Applied [Pending] Configurations:") ++ last_applied_text (mg_crits m) (mg_doms m)
  ++ title (lit "Selection Criteria:") ++ criteria_text false true (mg_crits m).

(** ** Properties *)

(** What the tree does not hold: descriptions (of the element, of its type) and units. *)
Record details := Details { dt_desc : list nat -> str; dt_type_desc : list nat -> str; dt_unit : list nat -> str }.

(** Element.cpp:130-135 showDescriptionProperty, ParameterType.cpp:113-116: nothing when empty. *)
Definition property (name v : str) : str := match v with [] => [] | _ => name ++ lit ": " ++ v ++ nl end.

(** IntegerParameterType.h:277-280: operator<< of a bound; the 8 bit integers are written as characters. *)
Definition print_bound (bytes : nat) (z : Z) : str := if bytes =? 1 then [byte_of z] else print_dec z.

(** The showProperties of the types: IntegerParameterType.h:273-294 (without adaptation), EnumParameterType.cpp:56-76,
    FixedPointParameterType.cpp:57-67, FloatingPointParameterType.cpp:53-58; ParameterType.cpp:109-120. *)
Definition ptype_properties (unit : str) (t : ptype) : str :=
  property (lit "Unit") unit ++ lit "Scalar size: " ++ print_dec (Z.of_nat (pt_size t)) ++ lit " byte(s) " ++ nl
  ++ match t with
     | PInt sg b lo hi =>
         lit "Signed: " ++ (if sg then lit "yes" else lit "no") ++ nl ++ lit "Min: " ++ print_bound b lo ++ nl ++ lit "Max: " ++ print_bound b hi ++ nl
     | PBool => []
     | PEnum _ ps =>
         lit "Value Pairs:" ++ nl
         ++ flat_map (fun x => ascii_of_nat 9 :: lit "Literal: """ ++ fst x ++ lit """, Numerical: " ++ print_dec (snd x) ++ nl) ps
     | PFix _ n f => lit "Notation: Q" ++ print_dec (Z.of_nat n) ++ lit "." ++ print_dec (Z.of_nat f) ++ nl
     | PFloat lo hi => lit "Min:" ++ print_f6 lo ++ nl ++ lit "Max:" ++ print_f6 hi ++ nl
     end.

(** BitParameterType.cpp:53-71, StringParameterType.cpp:49-57, ArrayParameter.cpp:61-69; TypeElement.cpp:79-86 for all the types.  The
    system and the subsystems have no type. *)
Definition kind_properties (dt : details) (k : ekind) (p : pos) : str :=
  match k with
  | KdSystem | KdSubsystem => []
  | _ => property (lit "Description") (dt_type_desc dt p)
  end
  ++ match k with
     | KdBit t => lit "Bit pos: " ++ print_dec (bt_pos t) ++ nl ++ lit "Bit size: " ++ print_dec (bt_size t) ++ nl ++ lit "Max: " ++ print_dec (bt_max t) ++ nl
     | KdString max => lit "Max length: " ++ print_dec (Z.of_nat max) ++ nl
     | KdParam t => ptype_properties (dt_unit dt p) t
     | KdArray t len => ptype_properties (dt_unit dt p) t ++ lit "Array length: " ++ print_dec (Z.of_nat len) ++ nl
     | _ => []
     end.

(** Element.cpp:124-128, ConfigurableElement.cpp:309-314, InstanceConfigurableElement.cpp:118-124. *)
Definition properties_text (dt : details) (e : elem) (p : pos) : str :=
  lit "Kind: " ++ kind_text (e_kind e) ++ nl ++ property (lit "Description") (dt_desc dt p)
  ++ lit "Total size: " ++ print_dec (Z.of_nat (footprint e)) ++ lit " byte(s)" ++ nl ++ kind_properties dt (e_kind e) p.

(** ** Help *)

(** ParameterMgr.cpp:150-323, the descriptions, in the order of [table]. *)
Definition descriptions : list string := [
  "Show commands description and usage";
  "Show version";
  "Show current status";
  "Turn on or off Tuning Mode";
  "Show Tuning Mode";
  "Assigns Value Space used for parameter value interpretation";
  "Show Value Space";
  "Assigns format used to output parameter values when in raw Value Space";
  "Show Output Raw Format";
  "Turn on or off automatic synchronization to hardware while in Tuning Mode";
  "Show Auto Sync state";
  "Synchronize current settings to hardware while in Tuning Mode and Auto Sync off";
  "List selection criteria";
  "List configurable domains";
  "Show all domains and configurations, including applicability conditions";
  "Create new configurable domain";
  "Delete configurable domain";
  "Delete all configurable domains";
  "Rename configurable domain";
  "Set configurable domain sequence awareness";
  "Get configurable domain sequence awareness";
  "List elements associated to configurable domain";
  "Associate element at given path to configurable domain";
  "Dissociate element at given path from configurable domain";
  "Split configurable domain at given associated element path";
  "List domain configurations";
  "Create new domain configuration";
  "Delete domain configuration";
  "Rename domain configuration";
  "Save current settings into configuration";
  "Restore current settings from configuration";
  "Set element application order for configuration";
  "Get element application order for configuration";
  "Set configuration application rule";
  "Clear configuration application rule";
  "Get configuration application rule";
  "List elements under element at given path or root";
  "List parameters under element at given path or root";
  "Get structure of element at given path in XML format";
  "Get settings of element at given path in Byte Array format";
  "Set settings of element at given path in Byte Array format";
  "Get settings of element at given path in XML format";
  "Set settings of element at given path in XML format";
  "Dump structure and content of element at given path";
  "Show size of element at given path";
  "Show properties of element at given path";
  "Get value for parameter at given path";
  "Set value for parameter at given path";
  "List domain(s) element at given path belongs to";
  "List domain(s) element at given path is associated to";
  "Get value for parameter at given path from configuration";
  "Set value for parameter at given path to configuration";
  "Show mapping for an element at given path";
  "List element sub-trees associated to at least one configurable domain";
  "List element sub-trees contained in more than one configurable domain";
  "List element sub-trees owned by no configurable domain";
  "Export domains to an XML file (provide an absolute path or relativeto the client's working directory)";
  "Import domains from an XML file (provide an absolute path or relativeto the client's working directory)";
  "Export domains including settings to XML file (provide an absolute path or relativeto the client's working directory)";
  "Export a single given domain including settings to XML file (provide an absolute path or relative to the client's working directory)";
  "Import domains including settings from XML file (provide an absolute path or relativeto the client's working directory)";
  "Import a single domain including settings from XML file. Does not overwrite an existing domain unless 'overwrite' is passed as second argument. Provide an absolute path or relative to the client's working directory)";
  "Print domains including settings as XML";
  "Print the given domain including settings as XML";
  "Import domains including settings from XML string";
  "Import domains including settings from XML string. Does not overwrite an existing domain unless 'overwrite' is passed as second argument";
  "Print parameter structure as XML";
  "DEPRECATED COMMAND, please use getDomainsWithSettingsXML"
]%string.

(** RemoteCommandHandlerTemplate.h:175-208 initMaxCommandUsageLength, helpCommandProcess. *)
Definition max_usage : nat := fold_left (fun a e => if a <? List.length (usage e) then List.length (usage e) else a) table 0.
Definition help_text : str :=
  flat_map (fun x => usage (fst x) ++ repeat " "%char (max_usage + 5 - List.length (usage (fst x))) ++ lit "=> " ++ lit (snd x) ++ nl)
           (combine table descriptions).

(** ** The commands *)

(** What is not modelled: the order of the addresses of the elements, descriptions and units, the reading of an XML text or file and
    the writing of an XML text by libxml2. *)
Record outside := Outside {
  os_order : list (list nat) -> list (list nat);
  os_details : details;
  os_read : bool -> str -> option xnode;
  os_write : xnode -> str
}.

Definition tell (t : str) : outcome (option str) := Ok (Some t).
Definition at_path (y : system) (o : option pos) (f : elem -> pos -> outcome (option str)) : outcome (option str) :=
  match o with
  | None => Ok None
  | Some p => match elem_at (sy_root y) p with Some e => f e p | None => Ok None end
  end.
Definition on_first (args : list str) (f : str -> outcome (option str)) : outcome (option str) := match args with a :: _ => f a | [] => UB end.

(** What the answer of a command is ([None]: it fails); [Err]: the answer is not modelled. *)
Definition reports (os : outside) (y : system) : list (string * (list str -> mgr -> outcome (option str))) := [
  ("help", fun _ _ => tell help_text);
  ("status", fun _ m => tell (status_text y m));
  (* ParameterMgr.cpp:1061-1112 *)
  ("listCriteria", fun args m =>
     match args with
     | [] => tell (criteria_text true true (mg_crits m))
     | a :: _ => if str_eqb a (lit "XML") then Err else tell (criteria_text true false (mg_crits m))
     end);
  (* 1233-1244 *)
  ("dumpDomains", fun _ m => tell (dump_content 0 (domains_node (mg_crits m) (mg_doms m))));
  (* 1353-1402 *)
  ("listElements", fun args _ => on_first args (fun a =>
     at_path y (locate_or_root (sy_root y) a) (fun e p => tell (qualified_paths (sy_root y) false 0 e p))));
  ("listParameters", fun args _ => on_first args (fun a =>
     at_path y (locate_or_root (sy_root y) a) (fun e p => tell (qualified_paths (sy_root y) true 0 e p))));
  (* 1404-1428, 1941-1956 *)
  ("getElementStructureXML", fun args _ => on_first args (fun a =>
     at_path y (locate (sy_root y) a) (fun e _ => tell (os_write os (structure_xml e)))));
  ("getSystemClassXML", fun _ _ => tell (os_write os (structure_xml (sy_root y))));
  (* 1578-1595 *)
  ("getElementXML", fun args m => on_first args (fun a => answered (omap (os_write os) (get_element_xml y a m))));
  (* 1620-1643 *)
  ("dumpElement", fun args m => on_first args (fun a =>
     at_path y (locate (sy_root y) a) (fun e p =>
       do n <- element_node (sy_root y) (mg_fmt m) (mg_main m) e p; tell (dump_content 0 n))));
  (* 1665-1686 *)
  ("showProperties", fun args _ => on_first args (fun a =>
     at_path y (locate (sy_root y) a) (fun e p => tell (properties_text (os_details os) e p))));
  (* 1713-1753 *)
  ("listBelongingDomains", fun args m => on_first args (fun a =>
     at_path y (locate (sy_root y) a) (fun _ p => tell (vertical (mg_doms m) (belonging_domains (ds_att (mg_doms m)) p)))));
  ("listAssociatedDomains", fun args m => on_first args (fun a =>
     at_path y (locate (sy_root y) a) (fun _ p => tell (vertical (mg_doms m) (attached_to (ds_att (mg_doms m)) p)))));
  (* 1755-1777 *)
  ("listAssociatedElements", fun _ m => tell (associated_elements (os_order os) y (mg_doms m)));
  ("listConflictingElements", fun _ m => tell (conflicting_elements (os_order os) y (mg_doms m)));
  ("listRogueElements", fun _ m => tell (lines (map (path_in (sy_root y)) (rogue_elements (ds_att (mg_doms m)) (sy_root y) []))));
  (* 1891-1910 *)
  ("getDomainsWithSettingsXML", fun _ m => answered (omap (os_write os) (export_domains y true m)));
  ("getDomainWithSettingsXML", fun args m => on_first args (fun a => answered (omap (os_write os) (export_domain y true a m))));
  ("getDomainsXML", fun _ m => answered (omap (os_write os) (export_domains y true m)))
]%string.

Definition report (os : outside) (y : system) (name : str) (args : list str) (m : mgr) : outcome (option str) :=
  match find (fun x => str_eqb (lit (fst x)) name) (reports os y) with
  | Some x => snd x args m
  | None => Err
  end.

(** ParameterMgr.cpp:1597-1618, 1832-1939: what the import commands do with the text or the file. *)
Definition import_from (os : outside) (y : system) (i : import) (m : mgr) : outcome (bool * mgr) :=
  match i with
  | IDomains source settings file => import_domains y settings (os_read os file source) m
  | IDomain source overwrite settings file => import_domain y settings overwrite (os_read os file source) m
  | IElement path text => match os_read os false text with Some x => set_element_xml y path x m | None => Ok (false, m) end
  end.

(** The remote commands with the texts above; the environment [ev] gives the others. *)
Definition reporting (os : outside) (y : system) (ev : environment) : environment :=
  Env (ev_need ev)
      (fun name args m => match report os y name args m with Ok r => r | _ => ev_text ev name args m end)
      (ev_error ev)
      (import_from os y).
