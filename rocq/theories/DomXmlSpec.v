(** Vocabulary of the statements about the export and import of configurable domains as XML. *)
From Coq Require Import List Arith ZArith Bool Ascii String.
From Verif Require Import Base TextModel CriterionModel CriterionSpec RuleModel RuleSpec ParamTypeModel BlackboardModel BitModel ArrayModel TreeModel TreeSpec MemSpec
  SyncModel DomainModel DomainSpec MgrModel MgrSpec ValueSpec XmlModel XmlSpec DomXmlModel.
Import ListNotations.
Local Open Scope nat_scope.

(** ** Documents *)

(** The nesting that schemas/ConfigurableDomain.xsd and ConfigurableDomains.xsd require; the attributes and the content of the
    settings are not constrained. *)
Inductive rule_shaped : xnode -> Prop :=
| rs_crit : forall a c, rule_shaped (XElem (lit "SelectionCriterionRule") a c)
| rs_comp : forall a c, Forall rule_shaped (filter is_elem c) -> rule_shaped (XElem (lit "CompoundRule") a c).
Definition config_shaped (x : xnode) : Prop :=
  x_type x = lit "Configuration"
  /\ (x_elems x = [] \/ exists r, x_elems x = [r] /\ x_type r = lit "CompoundRule" /\ rule_shaped r).
Definition domain_shaped (x : xnode) : Prop :=
  x_type x = lit "ConfigurableDomain"
  /\ exists xc xe xs, x_elems x = xc :: xe :: xs /\ x_type xc = lit "Configurations" /\ x_type xe = lit "ConfigurableElements"
     /\ (xs = [] \/ exists s, xs = [s] /\ x_type s = lit "Settings")
     /\ Forall config_shaped (x_elems xc).
Definition domains_shaped (x : xnode) : Prop := x_type x = lit "ConfigurableDomains" /\ Forall domain_shaped (x_elems x).

(** ** Rules *)

(** Criteria with distinct names, whose literals can be told apart when several are joined. *)
Definition distinguishable (cs : list criterion) : Prop :=
  forall i k, nth_error cs i = Some k ->
    cr_name k <> []
    /\ (forall j k', nth_error cs j = Some k' -> cr_name k' = cr_name k -> i = j)
    /\ NoDup (map fst (cty_map (cr_type k)))
    /\ (cty_incl (cr_type k) = true -> forall l v, In (l, v) (cty_map (cr_type k)) -> l <> [] /\ ~ In "|"%char l).

(** A rule about existing criteria, with verbs that their types allow and values that have one literal. *)
Inductive writable (cs : list criterion) : rule -> Prop :=
| wr_crit : forall i k w v l, nth_error cs i = Some k -> (cty_incl (cr_type k) = true \/ w = VIs \/ w = VIsNot) ->
    In (l, v) (cty_map (cr_type k)) -> writable cs (RCrit i w v)
| wr_comp : forall all l, Forall (writable cs) l -> writable cs (RComp all l).

(** ** What can be exported and imported again *)

Definition recorded_restorable (y : system) (f : fmt) (a : area) : Prop :=
  forall r e, param_at (sy_root y) (ar_pos a ++ r) e ->
    restorable f false (e_kind e) (offset (sy_root y) (ar_pos a ++ r) - offset (sy_root y) (ar_pos a)) (ar_bb a).
Definition config_named (d : domain) : Prop := NoDup (map cf_name (dm_configs d)) /\ ~ In [] (map cf_name (dm_configs d)).
Definition rule_exportable (cs : list criterion) (c : config) : Prop :=
  forall r, cf_rule c = Some r -> writable cs r /\ exists all l, r = RComp all l.
Definition exportable (y : system) (cs : list criterion) (f : fmt) (d : domain) : Prop :=
  config_named d /\ forall c, In c (dm_configs d) -> rule_exportable cs c /\ Forall (recorded_restorable y f) (cf_areas c).

(** ** The same domains *)

(** The same element; the recorded memory shows the same text for its parameters in every format, with every index. *)
Definition same_record (y : system) (a a' : area) : Prop :=
  ar_pos a' = ar_pos a /\ ar_valid a' = true
  /\ forall r e, param_at (sy_root y) (ar_pos a ++ r) e -> forall g rest,
       leaf_get (e_kind e) g rest (offset (sy_root y) (ar_pos a ++ r) - offset (sy_root y) (ar_pos a)) 0 (ar_bb a')
       = leaf_get (e_kind e) g rest (offset (sy_root y) (ar_pos a ++ r) - offset (sy_root y) (ar_pos a)) 0 (ar_bb a).

(** The same name, rule, elements in the same order, and recorded settings. *)
Definition same_config (y : system) (c c' : config) : Prop :=
  cf_name c' = cf_name c /\ cf_rule c' = cf_rule c /\ Forall2 (same_record y) (cf_areas c) (cf_areas c').
Definition same_domain (y : system) (d d' : domain) : Prop :=
  dm_name d' = dm_name d /\ dm_aware d' = dm_aware d /\ dm_elems d' = dm_elems d
  /\ Forall2 (same_config y) (dm_configs d) (dm_configs d').
Definition same_domains (y : system) (s s' : domains) : Prop := Forall2 (same_domain y) (ds_list s) (ds_list s').

(** The same, but for the recorded settings: those of [main] instead, in the order of the list of elements. *)
Definition live_record (y : system) (main : blackboard) (p : list nat) (a' : area) : Prop :=
  ar_pos a' = p /\ ar_valid a' = true /\ same_setting (sy_root y) p (offset (sy_root y) p) (ar_bb a') 0 main.
Definition same_skeleton (y : system) (main : blackboard) (d d' : domain) : Prop :=
  dm_name d' = dm_name d /\ dm_aware d' = dm_aware d /\ dm_elems d' = dm_elems d
  /\ Forall2 (fun c c' => cf_name c' = cf_name c /\ cf_rule c' = cf_rule c /\ Forall2 (live_record y main) (dm_elems d) (cf_areas c'))
       (dm_configs d) (dm_configs d').

(** The rules are ones that setRule could have installed. *)
Definition rules_legal (cs : list criterion) (s : domains) : Prop :=
  forall d c r, In d (ds_list s) -> In c (dm_configs d) -> cf_rule c = Some r -> legal cs r /\ exists all l, r = RComp all l.
