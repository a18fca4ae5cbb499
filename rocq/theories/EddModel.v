(** Model of the EDD language of the domain generator (tools/xmlGenerator/EddParser.py, PfwBaseTranslator.py,
    PFWScriptGenerator.py, domainGenerator.py): the files in which domains, configurations, rules and settings are written, and the
    commands that they become.
    Simplifications: a file is the list of its lines; the characters are 8 bit (a Python 2 str); the messages of the errors are not
    modelled; a syntax error and an UndefinedParameter are [Err], and an exception that nobody catches is [Abort]; the step of m4
    and the --raw output are left out. *)
From Coq Require Import List Arith Bool Ascii String.
From Verif Require Import Base GenModel.
Import ListNotations.
Local Open Scope nat_scope.

(** ** Texts, as Python has them *)

(** str.isspace in the C locale. *)
Definition py_blank (c : ascii) : bool := in_chars (map ascii_of_nat [9; 10; 11; 12; 13; 32]) c.

Fixpoint lstrip (s : str) : str :=
  match s with c :: r => if py_blank c then lstrip r else s | [] => [] end.

(** str.strip. *)
Definition strip (s : str) : str := rev (lstrip (rev (lstrip s))).

(** str.split(d, 1) for one character: what is before the first one and, if there is one, what is after. *)
Fixpoint cut (d : ascii) (s : str) : str * option str :=
  match s with
  | [] => ([], None)
  | c :: r => if char_eqb c d then ([], Some r) else let '(a, b) := cut d r in (c :: a, b)
  end.

(** str.join. *)
Fixpoint joined (sep : str) (l : list str) : str :=
  match l with
  | [] => []
  | [x] => x
  | x :: r => x ++ sep ++ joined sep r
  end.

Fixpoint starts_with (p s : str) : option str :=
  match p, s with
  | [], _ => Some s
  | a :: p', c :: s' => if char_eqb a c then starts_with p' s' else None
  | _ :: _, [] => None
  end.

(** The regular expression " *". *)
Fixpoint skip_spaces (s : str) : str :=
  match s with c :: r => if char_eqb c " "%char then skip_spaces r else s | [] => [] end.

(** The longest prefix of characters of [a-zA-Z0-9_.], and the rest. *)
Definition word_char (c : ascii) : bool :=
  let n := nat_of_ascii c in
  ((97 <=? n) && (n <=? 122)) || ((65 <=? n) && (n <=? 90)) || ((48 <=? n) && (n <=? 57)) || (n =? 95) || (n =? 46).
Fixpoint word (s : str) : str * str :=
  match s with
  | c :: r => if word_char c then let '(a, b) := word r in (c :: a, b) else ([], s)
  | [] => ([], [])
  end.

(** ** Elements *)

(** The classes of EddParser.py: 703 Root, 692 GroupDomain, 580 Domain, 534 GroupConfiguration, 431 Configuration, 346 GroupPath,
    325 Path, 395 Operator, 373 Rule. *)
Inductive ekind := KRoot | KGroupDomain | KDomain | KGroupConf | KConf | KGroupPath | KPath | KOperator | KRule.

Definition kind_eqb (a b : ekind) : bool :=
  match a, b with
  | KRoot, KRoot | KGroupDomain, KGroupDomain | KDomain, KDomain | KGroupConf, KGroupConf | KConf, KConf
  | KGroupPath, KGroupPath | KPath, KPath | KOperator, KOperator | KRule, KRule => true
  | _, _ => false
  end.

(** EddParser.py:117-143 Options: the name (of a rule: its criterion), the value of a path or the type of a rule, the state of
    a rule, and whether a domain is said to be sequence aware. *)
Record eopts := EOpts { eo_name : str; eo_value : str; eo_elem : str; eo_aware : bool }.

(** EddParser.py:149-165. *)
Inductive edd := Edd (k : ekind) (o : eopts) (children : list edd).

Definition ed_kind (n : edd) : ekind := let 'Edd k _ _ := n in k.
Definition ed_opts (n : edd) : eopts := let 'Edd _ o _ := n in o.
Definition ed_children (n : edd) : list edd := let 'Edd _ _ c := n in c.
Definition ed_name (n : edd) : str := eo_name (ed_opts n).

(** The childWhiteList of each class: EddParser.py:155, 350, 383, 406, 435, 538, 586, 695, 705. *)
Definition white_list (k : ekind) : list ekind :=
  match k with
  | KRoot => [KDomain; KGroupDomain]
  | KGroupDomain => [KGroupDomain; KDomain; KGroupConf; KRule; KOperator]
  | KDomain => [KConf; KGroupConf; KRule; KOperator]
  | KGroupConf => [KRule; KOperator; KGroupConf; KConf; KGroupPath]
  | KConf => [KRule; KOperator; KPath; KGroupPath]
  | KGroupPath => [KPath; KGroupPath]
  | KOperator => [KRule; KOperator]
  | KPath => []
  | KRule => []
  end.

(** EddParser.py:187-201 addChild. *)
Definition permitted (parent child : ekind) : bool := existsb (kind_eqb child) (white_list parent).

(** EddParser.py:225-236 extractChildrenByClass. *)
Definition of_class (ks : list ekind) (l : list edd) : list edd := filter (fun n => existsb (kind_eqb (ed_kind n)) ks) l.

(** ** One line *)

(** The regular expression "(tag|tag) *:" at the start of the line. *)
Definition tagged (tags : list str) (s : str) : bool :=
  existsb (fun t => match starts_with t s with
                    | Some r => match skip_spaces r with c :: _ => char_eqb c ":"%char | [] => false end
                    | None => false
                    end) tags.

(** EddParser.py:329: ".+=". *)
Definition match_path (s : str) : bool :=
  match s with [] => false | _ :: r => match snd (cut "="%char r) with Some _ => true | None => false end end.

(** EddParser.py:405. *)
Definition match_operator (s : str) : bool :=
  match starts_with (lit "ANY") s, starts_with (lit "ALL") s with None, None => false | _, _ => true end.

(** EddParser.py:382. *)
Definition match_rule (s : str) : bool :=
  let '(w, r) := word s in
  match w, r with
  | _ :: _, c :: _ =>
      char_eqb c " "%char
      && existsb (fun v => match starts_with v (skip_spaces r) with
                           | Some (c' :: r') => char_eqb c' " "%char
                                                && match skip_spaces r' with x :: _ => word_char x | [] => false end
                           | _ => false
                           end) [lit "Is"; lit "IsNot"; lit "Includes"; lit "Excludes"]
  | _, _ => false
  end.

(** EddParser.py:256-261 ElementWithTag.extractOptions: what follows the first colon. *)
Definition after_tag (s : str) : str := strip (match cut ":"%char s with (_, Some r) => r | (a, None) => a end).

(** EddParser.py:175-185 extractOptions for the one option of a tagged element. *)
Definition tag_opts (s : str) : eopts := EOpts (strip (after_tag (strip s))) [] [] false.

(** EddParser.py:626-641 Domain.extractOptions. *)
Definition domain_opts (s : str) : eopts :=
  match cut " "%char (after_tag (strip s)) with
  | (a, Some b) => EOpts (strip a) [] [] (str_eqb (strip b) (lit "sequenceAware"))
  | (a, None) => EOpts (strip a) [] [] false
  end.

(** EddParser.py:175-185 for a path: "name = value". *)
Definition path_opts (s : str) : eopts :=
  match cut "="%char (strip s) with
  | (a, Some b) => EOpts (strip a) (strip b) [] false
  | (a, None) => EOpts (strip a) [] [] false
  end.

(** EddParser.py:175-185 for a rule: "criterion type state". *)
Definition rule_opts (s : str) : eopts :=
  match cut " "%char (strip s) with
  | (a, Some b) => match cut " "%char b with
                   | (b', Some c) => EOpts (strip a) (strip b') (strip c) false
                   | (b', None) => EOpts (strip a) (strip b') [] false
                   end
  | (a, None) => EOpts (strip a) [] [] false
  end.

(** EddParser.py:789-815 createElementFromLine: the first class that matches.  [Ok None]: the line is left out with a warning.
    EmptyLine (306) matches nothing that [get_rank] lets through. *)
Definition element_of (s : str) : outcome (option (ekind * eopts)) :=
  match s with
  | "#"%char :: _ => Ok None
  | _ =>
      if tagged [lit "supDomain"; lit "domainGroup"] s then Ok (Some (KGroupDomain, domain_opts s))
      else if tagged [lit "domain"] s then Ok (Some (KDomain, domain_opts s))
      else if match_path s then Ok (Some (KPath, path_opts s))
      else if tagged [lit "supConf"; lit "confGroup"; lit "confType"] s then Ok (Some (KGroupConf, tag_opts s))
      else if tagged [lit "conf"] s then Ok (Some (KConf, tag_opts s))
      else if match_operator s then Ok (Some (KOperator, EOpts (strip (strip s)) [] [] false))
      else if match_rule s then Ok (Some (KRule, rule_opts s))
      else if tagged [lit "component"] s then Ok (Some (KGroupPath, tag_opts s))
      else Err
  end.

(** EddParser.py:837-860 __getRank__: the tabulations and spaces at the start, and the rest. *)
Fixpoint indentation (s : str) : str * str :=
  match s with
  | c :: r => if char_eqb c (ascii_of_nat 9) || char_eqb c " "%char then let '(a, b) := indentation r in (c :: a, b) else ([], s)
  | [] => ([], [])
  end.

(** EddParser.py:826-860: [Ok None]: a line left out. *)
Definition parse_line (line : str) : outcome (option (nat * (ekind * eopts))) :=
  let '(i, rest) := indentation line in
  match rest with
  | [] => Ok None
  | _ :: _ =>
      if in_chars i " "%char then Err
      else do e <- element_of rest; Ok (match e with Some x => Some (S (List.length i), x) | None => None end)
  end.

(** ** The lines of a file *)

(** EddParser.py:869-893: an element that is still open, and the children that it has got. *)
Definition open := (ekind * eopts * list edd)%type.

(** EddParser.py:872: the elements in which the next line may go, the innermost one first; the root is at the end. *)
Record eparser := EParser { ep_root : list edd; ep_open : list open; ep_rank : nat }.

(** The innermost element is complete: it is in the list of its parent.  In the code it is there as soon as it is created, and its
    own children come later to the same object. *)
Definition give (n : edd) (root : list edd) (l : list open) : list edd * list open :=
  match l with
  | [] => (root ++ [n], [])
  | (k, o, c) :: r => (root, (k, o, c ++ [n]) :: r)
  end.

(** EddParser.py:879-880: as many as needed to have [keep] elements, the root not counted. *)
Fixpoint pop (n : nat) (root : list edd) (l : list open) : list edd * list open :=
  match n, l with
  | S n', (k, o, c) :: r => let '(root', r') := give (Edd k o c) root r in pop n' root' r'
  | _, _ => (root, l)
  end.

(** EddParser.py:875-891: one line. *)
Definition add_line (p : eparser) (line : str) : outcome eparser :=
  do x <- parse_line line;
  match x with
  | None => Ok p
  | Some (rank, (k, o)) =>
      if S (ep_rank p) <? rank then Err
      else
        let '(root, l) := pop (List.length (ep_open p) - (rank - 1)) (ep_root p) (ep_open p) in
        let parent := match l with [] => KRoot | (pk, _, _) :: _ => pk end in
        if permitted parent k then Ok (EParser root ((k, o, []) :: l) rank) else Err
  end.

Fixpoint add_lines (p : eparser) (lines : list str) : outcome eparser :=
  match lines with
  | [] => Ok p
  | l :: r => do p' <- add_line p l; add_lines p' r
  end.

(** EddParser.py:869-893 parse: what is written at the top of the file. *)
Definition parse_edd (lines : list str) : outcome (list edd) :=
  do p <- add_lines (EParser [] [] 0) lines;
  Ok (fst (pop (List.length (ep_open p)) (ep_root p) (ep_open p))).

(** ** Propagation *)

(** EddParser.py:73-110 PropagationContext. *)
Record ectx := ECtx { cx_domains : list eopts; cx_confs : list edd; cx_conf_opts : list eopts; cx_rules : list edd; cx_paths : list eopts }.

(** EddParser.py:77-84. *)
Definition no_ctx : ectx := ECtx [] [] [] [] [].

Definition rules_of (l : list edd) : list edd := of_class [KOperator; KRule] l.

(** EddParser.py:56-61 and 437-451 composition: the rules of the groups of the context that have this name. *)
Definition composed (c : ectx) (name : str) : list edd :=
  flat_map (fun g => rules_of (ed_children g)) (filter (fun g => str_eqb (ed_name g) name) (cx_confs c)).

Definition rename (o : eopts) (name : str) : eopts := EOpts name (eo_value o) (eo_elem o) (eo_aware o).

(** EddParser.py:480-492 getConfigurableElements and 352-365 getPathNames: the paths first, then those of the components. *)
Fixpoint path_names (n : edd) : list str :=
  match n with
  | Edd _ _ l =>
      flat_map (fun m => match m with Edd KPath o _ => [eo_name o] | _ => [] end) l
      ++ flat_map (fun m => match m with Edd KGroupPath _ _ => path_names m | _ => [] end) l
  end.

(** EddParser.py:557-572: the list of each configuration: those of the configurations first, then those of the groups. *)
Fixpoint element_lists (n : edd) : list (list str) :=
  match n with
  | Edd _ _ l =>
      flat_map (fun m => match m with Edd KConf _ _ => [path_names m] | _ => [] end) l
      ++ flat_map (fun m => match m with Edd KGroupConf _ _ => element_lists m | _ => [] end) l
  end.

(** list.sort and == on lists of texts: the same texts, as many times. *)
Definition same_names (a b : list str) : bool :=
  (List.length a =? List.length b)
  && forallb (fun x => List.length (filter (str_eqb x) a) =? List.length (filter (str_eqb x) b)) (a ++ b).

(** EddParser.py:654-675 checkConfigurableElementUnicity. *)
Definition uniform (n : edd) : bool :=
  match element_lists n with
  | l0 :: l => forallb (fun x => same_names x l0) l
  | [] => true
  end.

(** EddParser.py:604-623 Domain.OptionsInheritance. *)
Definition domain_context (c : ectx) (o : eopts) : ectx :=
  ECtx (cx_domains c ++ [o]) (cx_confs c) (cx_conf_opts c) (cx_rules c) (cx_paths c).
Definition domain_inherit (c : ectx) (o : eopts) : eopts :=
  EOpts (joined (lit ".") (map eo_name (cx_domains c ++ [o]))) (eo_value o) (eo_elem o) (existsb eo_aware (cx_domains c ++ [o])).

(** EddParser.py:473-477 Configuration.OptionsInheritance, 339-343 Path.OptionsInheritance. *)
Definition conf_inherit (c : ectx) (o : eopts) : eopts :=
  rename o (joined (lit ".") (map eo_name (cx_conf_opts c ++ [o]))).
Definition path_inherit (c : ectx) (o : eopts) : eopts :=
  rename o (joined (lit "/") (map eo_name (cx_paths c ++ [o]))).

(** EddParser.py:282-295 ruleInheritance: [l] are the children, those got by composition first; the rules of the context come
    before them, and the context gets those of [l]. *)
Definition with_rules (c : ectx) (l : list edd) : ectx :=
  ECtx (cx_domains c) (cx_confs c) (cx_conf_opts c) (cx_rules c ++ rules_of l) (cx_paths c).

(** The propagate methods: EddParser.py:238-241 (root, rules, operators), 266-277 (paths and components), 454-463
    (configurations), 540-554 (groups of configurations: the copy is put in the context of the parent), 588-594 (domains and
    groups of domains).  The result: the context of the caller as it is left, and the element.  The rules that an element
    receives are not propagated again: this would not change them. *)
Fixpoint propagate (c : ectx) (n : edd) : outcome (ectx * edd) :=
  match n with
  | Edd k o l =>
      let go := fix go (c : ectx) (l : list edd) : outcome (list edd) :=
        match l with
        | [] => Ok []
        | m :: r => do x <- propagate c m; do y <- go (fst x) r; Ok (snd x :: y)
        end in
      match k with
      | KRule | KOperator => Ok (c, n)
      | KRoot => do y <- go c l; Ok (c, Edd k o y)
      | KPath | KGroupPath =>
          let c' := ECtx (cx_domains c) (cx_confs c) (cx_conf_opts c) (cx_rules c) (cx_paths c ++ [o]) in
          do y <- go c' l; Ok (c, Edd k (path_inherit c o) y)
      | KConf | KGroupConf =>
          let out := if kind_eqb k KGroupConf then ECtx (cx_domains c) (cx_confs c ++ [n]) (cx_conf_opts c) (cx_rules c) (cx_paths c) else c in
          let got := composed c (eo_name o) in
          let c' := with_rules (ECtx (cx_domains out) (cx_confs out) (cx_conf_opts c ++ [o]) (cx_rules out) (cx_paths out)) (got ++ l) in
          do y <- go c' l;
          Ok (out, Edd k (conf_inherit c o) (cx_rules c ++ got ++ y))
      | KDomain | KGroupDomain =>
          do y <- go (with_rules (domain_context c o) l) l;
          let n' := Edd k (domain_inherit c o) (cx_rules c ++ y) in
          if uniform n' then Ok (c, n') else Err
      end
  end.

(** ** Commands *)

(** EddParser.py:385-392 and 410-427 PFWSyntax.  An operator whose name is not ANY or ALL: a KeyError. *)
Fixpoint rule_syntax (prefix : str) (n : edd) : outcome str :=
  match n with
  | Edd KOperator o l =>
      do name <- (if str_eqb (eo_name o) (lit "ANY") then Ok (lit "Any")
                  else if str_eqb (eo_name o) (lit "ALL") then Ok (lit "All") else Abort);
      do texts <- (fix go (l : list edd) : outcome (list str) :=
                     match l with
                     | [] => Ok []
                     | m :: r =>
                         if existsb (kind_eqb (ed_kind m)) [KRule; KOperator]
                         then do a <- rule_syntax (prefix ++ lit "    ") m; do b <- go r; Ok (a :: b)
                         else go r
                     end) l;
      Ok (prefix ++ name ++ lit "{ " ++ joined (lit " , ") texts ++ prefix ++ lit " }")
  | Edd _ o _ => Ok (prefix ++ eo_name o ++ lit " " ++ eo_value o ++ lit " " ++ eo_elem o)
  end.

(** EddParser.py:494-509 getRuleString. *)
Definition rule_string (l : list edd) : outcome str :=
  match of_class [KRule; KOperator] l with
  | [Edd KOperator o c] => rule_syntax [] (Edd KOperator o c)
  | rules => rule_syntax [] (Edd KOperator (EOpts (lit "ALL") [] [] false) rules)
  end.

(** PFWScriptGenerator.py:47-69. *)
Definition command := list str.

(** EddParser.py:332-333 and 367-369: the settings of a path or of a component. *)
Fixpoint set_commands (dom conf : str) (n : edd) : list command :=
  match n with
  | Edd KPath o _ => [[lit "setConfigurationParameter"; dom; conf; eo_name o; eo_value o]]
  | Edd KGroupPath _ l => flat_map (set_commands dom conf) l
  | _ => []
  end.

(** EddParser.py:511-518 and 574-576 (an element of another class gives nothing); PfwBaseTranslator.py:102-148: [aware]: the domain is sequence aware. *)
Fixpoint conf_commands (dom : str) (aware : bool) (n : edd) : outcome (list command) :=
  match n with
  | Edd KConf o l =>
      do rule <- rule_string l;
      Ok ([lit "createConfiguration"; dom; eo_name o] :: [lit "setRule"; dom; eo_name o; rule]
          :: (if aware then [lit "setElementSequence" :: dom :: eo_name o :: path_names n] else [])
          ++ flat_map (set_commands dom (eo_name o)) l)
  | Edd KGroupConf _ l =>
      (fix go (l : list edd) : outcome (list command) :=
         match l with
         | [] => Ok []
         | m :: r =>
             do a <- conf_commands dom aware m;
             do b <- go r; Ok (a ++ b)
         end) l
  | _ => Ok []
  end.

(** EddParser.py:678-690 and 697-699, 250-252; PfwBaseTranslator.py:77-100. *)
Fixpoint dom_commands (n : edd) : outcome (list command) :=
  match n with
  | Edd KDomain o l =>
      do confs <- conf_commands (eo_name o) (eo_aware o) (Edd KGroupConf o l);
      Ok ([lit "createDomain"; eo_name o]
          :: (if eo_aware o then [[lit "setSequenceAwareness"; eo_name o; lit "true"]] else [])
          ++ map (fun e => [lit "addElement"; eo_name o; e]) (match element_lists n with x :: _ => x | [] => [] end)
          ++ confs)
  | Edd KGroupDomain _ l =>
      (fix go (l : list edd) : outcome (list command) :=
         match l with
         | [] => Ok []
         | m :: r =>
             do a <- dom_commands m;
             do b <- go r; Ok (a ++ b)
         end) l
  | _ => Ok []
  end.

(** EddParser.py:238-241: the elements at the top of the file, one after the other. *)
Fixpoint propagate_all (c : ectx) (l : list edd) : outcome (list edd) :=
  match l with
  | [] => Ok []
  | m :: r => do x <- propagate c m; do y <- propagate_all (fst x) r; Ok (snd x :: y)
  end.

Fixpoint all_commands (l : list edd) : outcome (list command) :=
  match l with
  | [] => Ok []
  | m :: r => do a <- dom_commands m; do b <- all_commands r; Ok (a ++ b)
  end.

(** domainGenerator.py:130-149 and 170-176: the commands of one file. *)
Definition edd_commands (doc : list edd) : outcome (list command) :=
  do d <- propagate_all no_ctx doc; all_commands d.

Definition edd_script (lines : list str) : outcome (list command) :=
  do doc <- parse_edd lines; edd_commands doc.

(** domainGenerator.py:216-219: what the connector reads. *)
Definition command_line (c : command) : str := joined [ascii_of_nat 0] c.
