(** Model of the export and import of configurable domains as XML (parameter/ConfigurableDomains.cpp, ConfigurableDomain.cpp,
    DomainConfiguration.cpp, AreaConfiguration.cpp, CompoundRule.cpp, SelectionCriterionRule.cpp, Element.cpp, ParameterMgr.cpp). *)
From Coq Require Import List Arith ZArith Bool Ascii String.
From Verif Require Import Base TextModel CriterionModel RuleModel ParamTypeModel BlackboardModel BitModel ArrayModel TreeModel SyncModel DomainModel MgrModel
  XmlModel.
Import ListNotations.
Local Open Scope nat_scope.

(** ** Rules *)

(** CompoundRule.cpp:143-150 and SelectionCriterionRule.cpp:200-217 toXml, under Element.cpp:192-214.  A rule has no name.  The
    value is left empty when the number has no literal. *)
Fixpoint rule_to_xml (cs : list criterion) (r : rule) : xnode :=
  match r with
  | RComp all l => XElem (lit "CompoundRule") [(lit "Type", comp_text all)] (map (rule_to_xml cs) l)
  | RCrit c w v =>
      let '(n, value) := match nth_error cs c with
                         | Some k => (cr_name k, match cty_literal (cr_type k) v with Some l => l | None => [] end)
                         | None => ([], [])
                         end in
      XElem (lit "SelectionCriterionRule")
            [(lit "SelectionCriterion", n); (lit "MatchesWhen", verb_text w); (lit "Value", value)] []
  end.

(** ParameterMgr.cpp:2798-2811: the elements that the import of domains can create. *)
Definition library : list str :=
  [lit "ConfigurableDomain"; lit "Configuration"; lit "CompoundRule"; lit "SelectionCriterionRule"].

(** Element.cpp:303-321 createChild, ElementLibrary.cpp:49-58: a type unknown to the library is refused.  An element of the
    library other than the one expected is created, then used as if it were the expected one: undefined (here at once, even
    when the import is refused later). *)
Definition misplaced {A} (type : str) : outcome A := if existsb (str_eqb type) library then UB else Err.

(** SelectionCriterionRule.cpp:142-198 fromXml. *)
Definition crit_from_xml (cs : list criterion) (x : xnode) : outcome rule :=
  match crits_find cs (x_attr0 (lit "SelectionCriterion") x) with
  | None => Err
  | Some i =>
      match nth_error cs i with
      | None => Err
      | Some k =>
          match set_matches_when (cr_type k) (x_attr0 (lit "MatchesWhen") x) with
          | None => Err
          | Some w => match cty_numerical (cr_type k) (x_attr0 (lit "Value") x) with
                      | None => Err
                      | Some v => Ok (RCrit i w v)
                      end
          end
      end
  end.

(** CompoundRule.cpp:129-140 fromXml, Element.cpp:150-190: [Err] when refused. *)
Fixpoint rule_from_xml (cs : list criterion) (x : xnode) : outcome rule :=
  match x with
  | XText _ => Err
  | XElem t a c =>
      if str_eqb t (lit "CompoundRule") then
        omap (RComp (str_eqb (x_attr0 (lit "Type") x) (lit "All")))
          ((fix go (l : list xnode) : outcome (list rule) :=
              match l with
              | [] => Ok []
              | k :: r => if is_elem k then do k' <- rule_from_xml cs k; do r' <- go r; Ok (k' :: r') else go r
              end) c)
      else if str_eqb t (lit "SelectionCriterionRule") then crit_from_xml cs x
      else misplaced t
  end.

(** ** Export *)

(** XmlElement.cpp:194-198. *)
Definition bool_text (b : bool) : str := if b then lit "true" else lit "false".

(** Element.cpp:224-233 setXmlNameAttribute. *)
Definition name_attr (n : str) : list (str * str) := match n with [] => [] | _ => [(lit "Name", n)] end.

(** Element.cpp:192-214: a configuration, with its rule. *)
Definition config_to_xml (cs : list criterion) (c : config) : xnode :=
  XElem (lit "Configuration") (name_attr (cf_name c)) (match cf_rule c with Some r => [rule_to_xml cs r] | None => [] end).

(** DomainConfiguration.cpp:108-131 composeSettings and 189-213 exportOneConfigurableElementSettings. *)
Definition area_to_xml (y : system) (f : fmt) (a : area) : outcome xnode :=
  match elem_at (sy_root y) (ar_pos a) with
  | None => UB
  | Some e =>
      do x <- export_settings e (offset (sy_root y) (ar_pos a)) (offset (sy_root y) (ar_pos a)) f (ar_bb a);
      Ok (XElem (lit "ConfigurableElement") [(lit "Path", path_in (sy_root y) (ar_pos a))] [x])
  end.
Definition settings_to_xml (y : system) (f : fmt) (c : config) : outcome xnode :=
  do l <- omap_list (area_to_xml y f) (cf_areas c);
  Ok (XElem (lit "Configuration") [(lit "Name", cf_name c)] l).

(** ConfigurableDomain.cpp:110-204 toXml, childrenToXml, composeDomainConfigurations, composeConfigurableElements, composeSettings.
    [ws]: with the settings.  Simplification: the description of a domain is left out. *)
Definition domain_to_xml (y : system) (cs : list criterion) (f : fmt) (ws : bool) (d : domain) : outcome xnode :=
  do settings <- (if ws then do l <- omap_list (settings_to_xml y f) (dm_configs d); Ok [XElem (lit "Settings") [] l] else Ok []);
  Ok (XElem (lit "ConfigurableDomain") (name_attr (dm_name d) ++ [(lit "SequenceAware", bool_text (dm_aware d))])
        ([XElem (lit "Configurations") [] (map (config_to_xml cs) (dm_configs d));
          XElem (lit "ConfigurableElements") []
            (map (fun p => XElem (lit "ConfigurableElement") [(lit "Path", path_in (sy_root y) p)] []) (dm_elems d))]
         ++ settings)).

(** ConfigurableDomains.cpp:105-112 toXml.  Its name is the one of the system class (ParameterMgr.cpp:446-447). *)
Definition domains_to_xml (y : system) (cs : list criterion) (f : fmt) (ws : bool) (s : domains) : outcome xnode :=
  do l <- omap_list (domain_to_xml y cs f ws) (ds_list s);
  Ok (XElem (lit "ConfigurableDomains") [(lit "SystemClassName", e_name (sy_root y))] l).

(** ** Import *)

(** XmlElement.cpp:136-148 getChildElement, for the callers that do not test the result: the last child when there is none of
    that type; without any child, a null pointer. *)
Definition child_or_last (type : str) (x : xnode) : outcome xnode :=
  match find (fun c => str_eqb (x_type c) type) (x_elems x) with
  | Some c => Ok c
  | None => match rev (x_elems x) with c :: _ => Ok c | [] => UB end
  end.

(** NamedElementBuilderTemplate.h:38-41, Element.cpp:150-190: a configuration and its rule.  Simplification: several children,
    or a criterion rule alone, are [UB]; the schema excludes them. *)
Definition config_from_xml (cs : list criterion) (id : nat) (x : xnode) : outcome config :=
  if str_eqb (x_type x) (lit "Configuration") then
    match x_elems x with
    | [] => Ok (Config id (x_name x) None [])
    | r :: more =>
        if str_eqb (x_type r) (lit "CompoundRule") then
          do r' <- rule_from_xml cs r;
          match more with [] => Ok (Config id (x_name x) (Some r') []) | _ => UB end
        else misplaced (x_type r)
    end
  else misplaced (x_type x).
Fixpoint configs_from_xml (cs : list criterion) (id : nat) (xs : list xnode) : outcome (list config) :=
  match xs with
  | [] => Ok []
  | x :: r => do c <- config_from_xml cs id x; do l <- configs_from_xml cs (S id) r; Ok (c :: l)
  end.

(** ConfigurableDomain.cpp:258-314 parseConfigurableElements: the paths as in [locate] (PathNavigator.cpp:53-81, Element.cpp:432-449),
    no main memory. *)
Fixpoint elements_from_xml (y : system) (xs : list xnode) (d : domain) (at_ : attachments)
  : outcome (bool * (domain * attachments)) :=
  match xs with
  | [] => Ok (true, (d, at_))
  | x :: r =>
      match locate (sy_root y) (x_attr0 (lit "Path") x) with
      | None => Ok (false, (d, at_))
      | Some p => do z <- dm_add y p None d at_;
                  if fst z then elements_from_xml y r (fst (snd z)) (snd (snd z)) else Ok z
      end
  end.

(** DomainConfiguration.cpp:134-187 importOneConfigurableElementSettings, AreaConfiguration.cpp:107-130: real value space. *)
Definition area_from_xml (y : system) (x : xnode) (a : area) : outcome (bool * area) :=
  match elem_at (sy_root y) (ar_pos a) with
  | None => UB
  | Some e =>
      match x_elems x with
      | [xc] =>
          if type_matches (e_kind e) xc && str_eqb (x_name xc) (e_name e) then
            do r <- import_settings e xc (offset (sy_root y) (ar_pos a)) (offset (sy_root y) (ar_pos a)) false false (ar_bb a);
            let '(ok, _, bb) := r in Ok (ok, Area (ar_pos a) bb (ar_valid a || ok))
          else Ok (false, a)
      | _ => Ok (false, a)
      end
  end.

(** DomainConfiguration.cpp:66-105 parseSettings: result and areas.  What a refused import has written is not kept, as the
    domain is deleted. *)
Fixpoint areas_from_xml (y : system) (xs : list xnode) (placed rest : list area) : outcome (bool * list area) :=
  match xs with
  | [] => Ok (true, placed ++ rest)
  | x :: r =>
      let path := x_attr0 (lit "Path") x in
      match find_area_path y path (placed ++ rest) with
      | None => Ok (false, placed ++ rest)
      | Some a =>
          do z <- area_from_xml y x a;
          if fst z then let (placed', rest') := splice y path placed rest (snd z) in areas_from_xml y r placed' rest'
          else Ok (false, placed ++ rest)
      end
  end.

(** ConfigurableDomain.cpp:317-361 parseSettings, on the children of the Settings element. *)
Fixpoint settings_from_xml (y : system) (xs : list xnode) (d : domain) : outcome (bool * domain) :=
  match xs with
  | [] => Ok (true, d)
  | x :: r =>
      do z <- dm_on_config (x_name x)
                (fun c => do w <- areas_from_xml y (x_elems x) [] (cf_areas c); Ok (fst w, with_areas c (snd w))) d;
      if fst z then settings_from_xml y r (snd z) else Ok z
  end.

(** XmlElement.cpp:98-113 getAttribute(bool) in ConfigurableDomain.cpp:216: None for the PfError exception. *)
Definition aware_from_xml (x : xnode) : option bool :=
  match x_attr (lit "SequenceAware") x with Some s => convert_bool s | None => Some false end.

(** ConfigurableDomain.cpp:208-239 fromXml, once the awareness is read.  XmlDomainImportContext.h: the validation of the areas
    without settings is always required. *)
Definition domain_from_xml (y : system) (cs : list criterion) (ws : bool) (aware : bool) (id : nat) (x : xnode) (at_ : attachments)
  : outcome (bool * (domain * attachments)) :=
  do xc <- child_or_last (lit "Configurations") x;
  match configs_from_xml cs 0 (x_elems xc) with
  | Ok cfs =>
      let d0 := Domain id (x_name x) aware [] cfs None [] (List.length cfs) in
      do xe <- child_or_last (lit "ConfigurableElements") x;
      do z <- elements_from_xml y (x_elems xe) d0 at_;
      let '(ok, (d1, at1)) := z in
      if ok then
        do w <- (if ws then match find (fun c => str_eqb (x_type c) (lit "Settings")) (x_elems x) with
                            | Some xs => settings_from_xml y (x_elems xs) d1
                            | None => Ok (true, d1)
                            end
                 else Ok (true, d1));
        if fst w then do d2 <- dm_auto_validate (snd w); Ok (true, (d2, at1)) else Ok (false, (snd w, at1))
      else Ok z
  | Err => Ok (false, (Domain id (x_name x) aware [] [] None [] 0, at_))
  | Abort => Abort
  | UB => UB
  end.

(** Element.cpp:150-190 fromXml of the domains; the exceptions are caught (187-190). *)
Fixpoint domains_from_xml (y : system) (cs : list criterion) (ws : bool) (xs : list xnode) (s : domains) : outcome (bool * domains) :=
  match xs with
  | [] => Ok (true, s)
  | x :: r =>
      if str_eqb (x_type x) (lit "ConfigurableDomain") then
        match aware_from_xml x with
        | None => Ok (false, s)
        | Some aware =>
            do z <- domain_from_xml y cs ws aware (ds_fresh s) x (ds_att s);
            let '(ok, (d, at_)) := z in
            let s' := Domains (ds_list s ++ [d]) at_ (S (ds_fresh s)) in
            if ok then domains_from_xml y cs ws r s' else Ok (false, s')
        end
      else match misplaced (x_type x) with Ok b => Ok (b, s) | Err => Ok (false, s) | Abort => Abort | UB => UB end
  end.

(** XmlDocSource.cpp:115-160 populate. *)
Definition domains_root (y : system) (x : xnode) : bool :=
  str_eqb (x_type x) (lit "ConfigurableDomains")
  && (match e_name (sy_root y) with [] => true | n => str_eqb (x_attr0 (lit "SystemClassName") x) n end).

(** ParameterMgr.cpp:619-650 xmlParse with [replace]: the domains are deleted before the import, and again when it is refused. *)
Definition import_all (y : system) (cs : list criterion) (ws : bool) (x : xnode) (s : domains) : outcome (bool * domains) :=
  let s0 := ds_delete_all s in
  if domains_root y x then
    do z <- domains_from_xml y cs ws (x_elems x) s0;
    if fst z then Ok z else Ok (false, ds_delete_all (snd z))
  else Ok (false, s0).

(** ParameterMgr.cpp:2565-2591 importSingleDomainXml, ConfigurableDomains.cpp:132-152 addDomain.  [Abort]: the exception of the
    SequenceAware attribute, which nothing catches. *)
Definition import_one (y : system) (cs : list criterion) (ws overwrite : bool) (x : xnode) (s : domains) : outcome (bool * domains) :=
  if str_eqb (x_type x) (lit "ConfigurableDomain") then
    match aware_from_xml x with
    | None => Abort
    | Some aware =>
        do z <- domain_from_xml y cs ws aware (ds_fresh s) x (ds_att s);
        let '(ok, (d, at_)) := z in
        let dropped := Domains (ds_list s) (forget d at_) (S (ds_fresh s)) in
        let add := fun s' => Domains (ds_list s' ++ [d]) (ds_att s') (ds_fresh s') in
        let s1 := Domains (ds_list s) at_ (S (ds_fresh s)) in
        if ok then
          match ds_find (dm_name d) s1 with
          | None => Ok (true, add s1)
          | Some _ => if overwrite then Ok (true, add (snd (ds_delete (dm_name d) s1))) else Ok (false, dropped)
          end
        else Ok (false, dropped)
    end
  else Ok (false, s).

(** ** The manager *)

(** ParameterMgr.cpp:2538-2563 importDomainsXml, 2593-2613 wrapLegacyXmlImport.  No document: the text could not be parsed. *)
Definition import_domains (y : system) (ws : bool) (doc : option xnode) (m : mgr) : outcome (bool * mgr) :=
  tuned m (match doc with
           | None => Ok (false, m)
           | Some x =>
               do z <- import_all y (mg_crits m) ws x (mg_doms m);
               if fst z then do s <- ds_validate y (mg_main m) (snd z); Ok (true, with_doms m s)
               else Ok (false, with_doms m (snd z))
           end).

(** ParameterMgr.cpp:2565-2591 importSingleDomainXml. *)
Definition import_domain (y : system) (ws overwrite : bool) (doc : option xnode) (m : mgr) : outcome (bool * mgr) :=
  tuned m (match doc with
           | None => Ok (false, m)
           | Some x => on_doms m (import_one y (mg_crits m) ws overwrite x (mg_doms m))
           end).

(** ParameterMgr.cpp:2637-2691 exportDomainsXml, exportSingleDomainXml, wrapLegacyXmlExport. *)
Definition export_domains (y : system) (ws : bool) (m : mgr) : outcome xnode :=
  domains_to_xml y (mg_crits m) (mg_fmt m) ws (mg_doms m).
Definition export_domain (y : system) (ws : bool) (name : str) (m : mgr) : outcome xnode :=
  match ds_find name (mg_doms m) with
  | None => Err
  | Some d => domain_to_xml y (mg_crits m) (mg_fmt m) ws d
  end.
