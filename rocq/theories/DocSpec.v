(** Vocabulary of the statements about what a settings document says. *)
From Coq Require Import List Arith ZArith Bool Ascii String.
From Verif Require Import Base TextModel CriterionModel CriterionSpec RuleModel RuleSpec ParamTypeModel BlackboardModel BitModel ArrayModel TreeModel TreeSpec MemSpec
  SyncModel DomainModel DomainSpec MgrModel MgrSpec ValueSpec XmlModel XmlSpec DomXmlModel DomXmlSpec CatSpec.
Import ListNotations.
Local Open Scope nat_scope.

(** ** Parts of a document *)

(** The children of the first child of type [t]. *)
Definition part (t : str) (x : xnode) : list xnode :=
  match find (fun c => str_eqb (x_type c) t) (x_elems x) with Some c => x_elems c | None => [] end.
Definition configurations (x : xnode) : list xnode := part (lit "Configurations") x.
Definition associated (x : xnode) : list xnode := part (lit "ConfigurableElements") x.
(** The settings of the configurations; [ws]: they are asked for. *)
Definition blocks (ws : bool) (x : xnode) : list xnode := if ws then part (lit "Settings") x else [].
Definition path_of (x : xnode) : str := x_attr0 (lit "Path") x.

(** What the schemas require besides the nesting: configurations with distinct names, at most one setting of each path in each
    block. *)
Definition keyed (x : xnode) : Prop :=
  NoDup (map x_name (configurations x)) /\ ~ In [] (map x_name (configurations x))
  /\ forall b, In b (part (lit "Settings") x) -> NoDup (map path_of (x_elems b)).

(** ** Rules *)

(** The rule of a node: a criterion found by its name (the first one), a verb that its type allows, a value of the type; the
    rules of the children in order. *)
Inductive rule_says (cs : list criterion) : xnode -> rule -> Prop :=
| ry_crit : forall x i k w v, x_type x = lit "SelectionCriterionRule" ->
    nth_error cs i = Some k -> cr_path_name k = x_attr0 (lit "SelectionCriterion") x ->
    (forall j k', j < i -> nth_error cs j = Some k' -> cr_path_name k' <> x_attr0 (lit "SelectionCriterion") x) ->
    x_attr0 (lit "MatchesWhen") x = verb_text w -> (cty_incl (cr_type k) = true \/ w = VIs \/ w = VIsNot) ->
    value_denotes (cr_type k) (x_attr0 (lit "Value") x) v -> rule_says cs x (RCrit i w v)
| ry_comp : forall x all l, x_type x = lit "CompoundRule" -> (all = true <-> x_attr0 (lit "Type") x = lit "All") ->
    Forall2 (rule_says cs) (x_elems x) l -> rule_says cs x (RComp all l).
(** The rule of a configuration: that of its child; none without a child. *)
Definition config_says (cs : list criterion) (x : xnode) (o : option rule) : Prop :=
  match o with
  | None => x_elems x = []
  | Some r => exists xr, x_elems x = [xr] /\ rule_says cs xr r
  end.

(** ** Elements *)

(** The associations of a list of paths, one after the other: each path leads to an element that no associated element contains;
    the associated elements that it contains are replaced by it. *)
Inductive elems_say (root : elem) : list (list nat) -> list xnode -> list (list nat) -> Prop :=
| ey_done : forall l, elems_say root l [] l
| ey_more : forall l x xs p out, locate root (path_of x) = Some p -> (forall q, In q l -> under q p = false) ->
    elems_say root (filter (fun q => negb (under p q)) l ++ [p]) xs out -> elems_say root l (x :: xs) out.

(** ** Settings *)

(** The node [xe] is a setting for the element at [p]: it has one child, about this element and with the shape of the structure,
    and the text for each parameter is one that the parameter accepts, in the value space asked for. *)
Definition setting_for (y : system) (p : list nat) (xe xc : xnode) (e : elem) : Prop :=
  elem_at (sy_root y) p = Some e /\ x_elems xe = [xc] /\ tagged e xc /\ fits e xc.
Definition sets (y : system) (p r : list nat) (k : ekind) (raw : bool) (s : str) (bb bb' : blackboard) : Prop :=
  leaf_set k (Fmt raw false) [] s (offset (sy_root y) (p ++ r)) (offset (sy_root y) p) bb = Ok (true, bb').
Definition setting_ok (y : system) (p : list nat) (xe : xnode) : Prop :=
  exists xc e, setting_for y p xe xc e
    /\ forall r k raw s, asked e xc false r k raw s -> exists bb bb', List.length bb = storage_size e /\ sets y p r k raw s bb bb'.
(** The memory [bb] holds the setting: that of each parameter is the one its text gives.  (An array keeps its last cells when the
    text has fewer values than cells: [b0] is the memory before, which only matters then.) *)
Definition records (y : system) (p : list nat) (xe : xnode) (bb : blackboard) : Prop :=
  exists xc e, setting_for y p xe xc e
    /\ forall r k raw s, asked e xc false r k raw s ->
         exists b0 b1, List.length b0 = storage_size e /\ sets y p r k raw s b0 b1
           /\ same_setting (sy_root y) (p ++ r) (offset (sy_root y) p) bb (offset (sy_root y) p) b1.

(** The setting of the element at [p] in the configuration [n]: the last one in the blocks of this name. *)
Definition own (root : elem) (bs : list xnode) (n : str) (p : list nat) : option xnode :=
  find (fun e => str_eqb (path_of e) (path_in root p)) (rev (flat_map x_elems (filter (fun b => str_eqb (x_name b) n) bs))).
(** The first configuration that has one. *)
Fixpoint first_own (root : elem) (bs : list xnode) (names : list str) (p : list nat) : option xnode :=
  match names with
  | [] => None
  | n :: r => match own root bs n p with Some e => Some e | None => first_own root bs r p end
  end.
(** The setting that the configuration [n] gets: its own, otherwise the one of the first configuration that has one. *)
Definition source (root : elem) (bs : list xnode) (names : list str) (n : str) (p : list nat) : option xnode :=
  match own root bs n p with Some e => Some e | None => first_own root bs names p end.

(** The order of the elements in the configuration [n]: block after block, those that the block mentions come first, in its
    order. *)
Definition order (root : elem) (bs : list xnode) (n : str) (ps : list (list nat)) : list (list nat) :=
  fold_left (fun l b => reorder root (map path_of (x_elems b)) l) (filter (fun b => str_eqb (x_name b) n) bs) ps.

(** ** Domains *)

(** The document can be read with the criteria [cs]. *)
Definition aware_says (x : xnode) (b : bool) : Prop :=
  match x_attr (lit "SequenceAware") x with
  | None => b = false
  | Some s => In s (if b then [lit "true"; lit "TRUE"; lit "1"] else [lit "false"; lit "FALSE"; lit "0"])
  end.
Definition blocks_ok (y : system) (ws : bool) (x : xnode) (ps : list (list nat)) : Prop :=
  forall b, In b (blocks ws x) -> In (x_name b) (map x_name (configurations x))
    /\ forall xe, In xe (x_elems b) -> exists p, In p ps /\ path_of xe = path_in (sy_root y) p /\ setting_ok y p xe.
Definition readable (y : system) (cs : list criterion) (ws : bool) (x : xnode) : Prop :=
  (exists a, aware_says x a)
  /\ (forall c, In c (configurations x) -> exists o, config_says cs c o)
  /\ exists ps, elems_say (sy_root y) [] (associated x) ps /\ blocks_ok y ws x ps.

(** What the recorded setting of the element at [p] in the configuration [n] is; [main]: the memory that completes the settings
    that the document does not have. *)
Definition area_says (y : system) (ws : bool) (main : option blackboard) (x : xnode) (n : str) (p : list nat) (a : area) : Prop :=
  ar_pos a = p
  /\ match source (sy_root y) (blocks ws x) (map x_name (configurations x)) n p with
     | Some xe => ar_valid a = true /\ records y p xe (ar_bb a)
     | None => match main with Some m => live_record y m p a | None => ar_valid a = false end
     end.
(** The domain is the one of the document: its name, awareness, elements, and configurations with their names, rules, order and
    settings. *)
Definition domain_says (y : system) (cs : list criterion) (ws : bool) (main : option blackboard) (x : xnode) (d : domain) : Prop :=
  dm_name d = x_name x /\ aware_says x (dm_aware d) /\ elems_say (sy_root y) [] (associated x) (dm_elems d)
  /\ Forall2 (fun xc c => cf_name c = x_name xc /\ config_says cs xc (cf_rule c)
       /\ Forall2 (area_says y ws main x (x_name xc)) (order (sy_root y) (blocks ws x) (x_name xc) (dm_elems d)) (cf_areas c))
       (configurations x) (dm_configs d).

(** The document is for the system. *)
Definition about_system (y : system) (x : xnode) : Prop := e_name (sy_root y) = [] \/ x_attr0 (lit "SystemClassName") x = e_name (sy_root y).
