(** Specification vocabulary for EDD files: where an element is, which rules concern it, and what it sets. *)
From Coq Require Import List Arith Bool Ascii String Permutation.
From Verif Require Import Base TextSpec CriterionModel CriterionSpec RuleModel RuleSpec EddModel.
Import ListNotations.
Local Open Scope nat_scope.

(** ** Shape *)

(** Every element is where its kind may be. *)
Inductive shaped (parent : ekind) : edd -> Prop :=
| shaped_intro : forall k o l, permitted parent k = true -> Forall (shaped k) l -> shaped parent (Edd k o l).

(** The operators are ANY or ALL. *)
Inductive operators_ok : edd -> Prop :=
| operators_intro : forall k o l, (k = KOperator -> eo_name o = lit "ANY" \/ eo_name o = lit "ALL") ->
    Forall operators_ok l -> operators_ok (Edd k o l).

(** ** Places *)

(** The way to an element, the innermost first: at each level, what is written before it at that level, and the element. *)
Definition place := list (list edd * edd).

Definition is_rule (n : edd) : bool := match ed_kind n with KRule | KOperator => true | _ => false end.
Definition is_domain (n : edd) : bool := match ed_kind n with KDomain | KGroupDomain => true | _ => false end.
Definition is_group (n : edd) : bool := match ed_kind n with KGroupConf => true | _ => false end.
Definition is_conf (n : edd) : bool := match ed_kind n with KConf | KGroupConf => true | _ => false end.
Definition is_set (n : edd) : bool := match ed_kind n with KPath | KGroupPath => true | _ => false end.

(** The place is one of the file. *)
Inductive in_file (doc : list edd) : place -> Prop :=
| in_top : forall b n a, doc = b ++ n :: a -> in_file doc [(b, n)]
| in_below : forall b' p w b n a, in_file doc ((b', p) :: w) -> ed_children p = b ++ n :: a ->
    in_file doc ((b, n) :: (b', p) :: w).

(** The elements on the way that are of a kind, the outermost first. *)
Definition along (f : edd -> bool) (w : place) : list edd := filter f (rev (map snd w)).

(** A domain and a configuration have the names of all those in which they are. *)
Definition full_domain (w : place) : str := joined (lit ".") (map ed_name (along is_domain w)).
Definition full_conf (w : place) : str := joined (lit ".") (map ed_name (along is_conf w)).

(** A domain is sequence aware if it, or a group in which it is, says so. *)
Definition is_aware (w : place) : bool := existsb (fun n => eo_aware (ed_opts n)) (along is_domain w).

(** ** Rules *)

Definition own_rules (n : edd) : list edd := filter is_rule (ed_children n).

(** The groups of configurations that are known after what is on the way: at each level, those before, and the one on the way. *)
Fixpoint known (w : place) : list edd :=
  match w with
  | [] => []
  | (b, n) :: o => known o ++ filter is_group (b ++ [n])
  end.

(** What a place adds: its own rules; for a configuration or a group of configurations, also the rules of the groups of the same
    name known before it. *)
Definition rules_there (b : list edd) (n : edd) (o : place) : list edd :=
  (if is_conf n
   then flat_map own_rules (filter (fun g => str_eqb (ed_name g) (ed_name n)) (known o ++ filter is_group b))
   else [])
  ++ own_rules n.

(** The rules that concern a place: its own and those of all in which it is. *)
Fixpoint rules_for (w : place) : list edd :=
  match w with
  | [] => []
  | (b, n) :: o => rules_for o ++ rules_there b n o
  end.

(** The same as a relation: [r] is a rule of an element on the way, or of a group of the same name as a configuration on the way,
    written at a level of the way before it (or on the way above). *)
Inductive concerns (r : edd) : place -> Prop :=
| cn_own : forall b n o, In r (ed_children n) -> is_rule r = true -> concerns r ((b, n) :: o)
| cn_type : forall b n o g, is_conf n = true -> is_group g = true -> ed_name g = ed_name n ->
    In g b \/ (exists b' p o1 o2, o = o1 ++ (b', p) :: o2 /\ (In g b' \/ g = p)) ->
    In r (ed_children g) -> is_rule r = true -> concerns r ((b, n) :: o)
| cn_outer : forall b n o, concerns r o -> concerns r ((b, n) :: o).

(** ** Settings *)

(** What a path or a component sets, in the order of the file; [above]: the components in which it is. *)
Fixpoint settings (above : list str) (n : edd) : list (str * str) :=
  match n with
  | Edd KPath o _ => [(joined (lit "/") (above ++ [eo_name o]), eo_value o)]
  | Edd KGroupPath o l => flat_map (settings (above ++ [eo_name o])) l
  | _ => []
  end.

Definition sets (n : edd) : list (str * str) := flat_map (settings []) (ed_children n).

(** The same parameters, in the order in which they are added to the domain: at each level the parameters before the components. *)
Fixpoint elements (above : list str) (n : edd) : list str :=
  match n with
  | Edd _ _ l =>
      flat_map (fun m => match m with Edd KPath o _ => [joined (lit "/") (above ++ [eo_name o])] | _ => [] end) l
      ++ flat_map (fun m => match m with Edd KGroupPath o _ => elements (above ++ [eo_name o]) m | _ => [] end) l
  end.

(** ** Configurations and domains of a file *)

(** The places below [w] of the configurations of an element, in the order of the file; [b]: what is before. *)
Fixpoint conf_places (w : place) (n : edd) (b : list edd) : list place :=
  match n with
  | Edd KConf _ _ => [(b, n) :: w]
  | Edd KGroupConf _ l =>
      (fix go (b' l : list edd) : list place :=
         match l with
         | [] => []
         | m :: r => conf_places ((b, n) :: w) m b' ++ go (b' ++ [m]) r
         end) [] l
  | _ => []
  end.

(** The places that [f] gives for each of a list of elements; [b]: what is before the list. *)
Definition places_in (f : place -> edd -> list edd -> list place) (w : place) : list edd -> list edd -> list place :=
  fix go (b l : list edd) : list place :=
    match l with
    | [] => []
    | m :: r => f w m b ++ go (b ++ [m]) r
    end.

Definition confs_of (w : place) : list place :=
  match w with
  | (_, n) :: _ => places_in conf_places w [] (ed_children n)
  | [] => []
  end.

Fixpoint domain_places (w : place) (n : edd) (b : list edd) : list place :=
  match n with
  | Edd KDomain _ _ => [(b, n) :: w]
  | Edd KGroupDomain _ l =>
      (fix go (b' l : list edd) : list place :=
         match l with
         | [] => []
         | m :: r => domain_places ((b, n) :: w) m b' ++ go (b' ++ [m]) r
         end) [] l
  | _ => []
  end.

Definition domains_of (doc : list edd) : list place := places_in domain_places [] [] doc.

(** The configurations of an element, those directly in it first. *)
Fixpoint listed (n : edd) : list edd :=
  match n with
  | Edd _ _ l =>
      flat_map (fun m => match m with Edd KConf _ _ => [m] | _ => [] end) l
      ++ flat_map (fun m => match m with Edd KGroupConf _ _ => listed m | _ => [] end) l
  end.

(** ** Commands *)

Definition target (w : place) : edd := match w with (_, n) :: _ => n | [] => Edd KRoot (EOpts [] [] [] false) [] end.

Definition gap (d : nat) : str := repeat " "%char (4 * d).

(** A rule as it is written for setRule. *)
Fixpoint rule_line (d : nat) (n : edd) : str :=
  match n with
  | Edd KOperator o l =>
      gap d ++ (if str_eqb (eo_name o) (lit "ANY") then lit "Any" else lit "All") ++ lit "{ "
      ++ joined (lit " , ") (map (rule_line (S d)) l) ++ gap d ++ lit " }"
  | Edd _ o _ => gap d ++ eo_name o ++ lit " " ++ eo_value o ++ lit " " ++ eo_elem o
  end.

(** One operator stands alone; otherwise all the rules have to hold. *)
Definition rule_for (w : place) : str :=
  match rules_for w with
  | [Edd KOperator o l] => rule_line 0 (Edd KOperator o l)
  | l => lit "All{ " ++ joined (lit " , ") (map (rule_line 1) l) ++ lit " }"
  end.

Definition conf_script (dom : str) (aware : bool) (w : place) : list command :=
  [lit "createConfiguration"; dom; full_conf w]
  :: [lit "setRule"; dom; full_conf w; rule_for w]
  :: (if aware then [lit "setElementSequence" :: dom :: full_conf w :: elements [] (target w)] else [])
  ++ map (fun s => [lit "setConfigurationParameter"; dom; full_conf w; fst s; snd s]) (sets (target w)).

(** The elements of a domain: those of the first of its configurations, those directly in the domain first. *)
Definition added (w : place) : list str := match listed (target w) with c :: _ => elements [] c | [] => [] end.

Definition domain_script (w : place) : list command :=
  [lit "createDomain"; full_domain w]
  :: (if is_aware w then [[lit "setSequenceAwareness"; full_domain w; lit "true"]] else [])
  ++ map (fun e => [lit "addElement"; full_domain w; e]) (added w)
  ++ flat_map (conf_script (full_domain w) (is_aware w)) (confs_of w).

Definition script (doc : list edd) : list command := flat_map domain_script (domains_of doc).

(** All the configurations of each domain, and of each group of domains, set the same parameters. *)
Inductive even : edd -> Prop :=
| even_intro : forall k o l,
    (k = KDomain \/ k = KGroupDomain ->
     forall c1 c2, In c1 (listed (Edd k o l)) -> In c2 (listed (Edd k o l)) ->
       Permutation (map fst (sets c1)) (map fst (sets c2))) ->
    Forall even l -> even (Edd k o l).

(** ** Meaning of the rules *)

(** [r] is what the rule says. *)
Inductive says (cs : list criterion) : edd -> rule -> Prop :=
| says_crit : forall n i k w value v l a,
    named cs n i k -> n <> [] -> free_of (lit "{} ") n ->
    (cty_incl (cr_type k) = true \/ w = VIs \/ w = VIsNot) ->
    value_denotes (cr_type k) value v -> free_of (lit "{} ,") value ->
    says cs (Edd KRule (EOpts n (verb_text w) value a) l) (RCrit i w v)
| says_any : forall o l rs, eo_name o = lit "ANY" -> Forall2 (says cs) l rs -> says cs (Edd KOperator o l) (RComp false rs)
| says_all : forall o l rs, eo_name o = lit "ALL" -> Forall2 (says cs) l rs -> says cs (Edd KOperator o l) (RComp true rs).

(** ** Lines *)

Definition tab : ascii := ascii_of_nat 9.

(** No blank at either end. *)
Definition trimmed (s : str) : Prop :=
  (forall c r, s = c :: r -> py_blank c = false) /\ (forall c r, s = r ++ [c] -> py_blank c = false).
Definition blanks (s : str) : Prop := forall c, In c s -> py_blank c = true.
Definition no_char (c : ascii) (s : str) : Prop := ~ In c s.

(** A word of a rule. *)
Definition plain_word (s : str) : Prop := s <> [] /\ forall c, In c s -> word_char c = true.

(** What a line means, the indentation apart. *)
Inductive line_means : str -> ekind -> eopts -> Prop :=
| lm_domain : forall tag k sp name end_, In (tag, k) [(lit "domain", KDomain); (lit "domainGroup", KGroupDomain); (lit "supDomain", KGroupDomain)] ->
    spaces sp -> trimmed name -> no_char " "%char name -> blanks end_ ->
    line_means (tag ++ sp ++ lit ": " ++ name ++ end_) k (EOpts name [] [] false)
| lm_aware : forall tag k sp name end_, In (tag, k) [(lit "domain", KDomain); (lit "domainGroup", KGroupDomain); (lit "supDomain", KGroupDomain)] ->
    spaces sp -> trimmed name -> name <> [] -> no_char " "%char name -> blanks end_ ->
    line_means (tag ++ sp ++ lit ": " ++ name ++ lit " sequenceAware" ++ end_) k (EOpts name [] [] true)
| lm_conf : forall tag k sp name end_, In (tag, k) [(lit "conf", KConf); (lit "confGroup", KGroupConf); (lit "confType", KGroupConf); (lit "supConf", KGroupConf); (lit "component", KGroupPath)] ->
    spaces sp -> trimmed name -> no_char "="%char name -> blanks end_ ->
    line_means (tag ++ sp ++ lit ": " ++ name ++ end_) k (EOpts name [] [] false)
| lm_path : forall name s1 s2 value end_,
    name <> [] -> trimmed name -> no_char "="%char name -> no_char ":"%char name -> (forall r, name <> "#"%char :: r) ->
    blanks s1 -> blanks s2 -> trimmed value -> blanks end_ ->
    line_means (name ++ s1 ++ lit "=" ++ s2 ++ value ++ end_) KPath (EOpts name value [] false)
| lm_operator : forall name end_, name = lit "ANY" \/ name = lit "ALL" -> blanks end_ ->
    line_means (name ++ end_) KOperator (EOpts name [] [] false)
| lm_rule : forall crit verb state end_, plain_word crit ->
    (forall r, crit <> lit "ANY" ++ r) -> (forall r, crit <> lit "ALL" ++ r) ->
    In verb [lit "Is"; lit "IsNot"; lit "Includes"; lit "Excludes"] -> plain_word state -> blanks end_ ->
    line_means (crit ++ lit " " ++ verb ++ lit " " ++ state ++ end_) KRule (EOpts crit verb state false).

(** A line that says nothing: it has only tabulations and spaces, or it is a comment. *)
Inductive says_nothing : str -> Prop :=
| sn_blank : forall s, (forall c, In c s -> c = tab \/ c = " "%char) -> says_nothing s
| sn_comment : forall d s, says_nothing (repeat tab d ++ "#"%char :: s).

(** The lines that say a list of elements at a depth: one more tabulation for what is in an element. *)
Inductive written : nat -> list edd -> list str -> Prop :=
| wr_nil : forall d, written d [] []
| wr_nothing : forall d l line ls, says_nothing line -> written d l ls -> written d l (line :: ls)
| wr_element : forall d t k o sub more ls1 ls2, line_means t k o -> written (S d) sub ls1 -> written d more ls2 ->
    written d (Edd k o sub :: more) ((repeat tab d ++ t) :: ls1 ++ ls2).
