(** Vocabulary of the statements about the texts that the remote commands answer. *)
From Coq Require Import List Arith ZArith Bool Ascii String Sorted.
From Verif Require Import Base TextModel ParamTypeModel BitModel TreeModel TreeSpec CriterionModel RuleModel SyncModel DomainModel DomainSpec MgrModel MgrSpec StrucModel RemoteModel
  CommandModel.
Import ListNotations.
Local Open Scope nat_scope.

(** The command [name] with the arguments [args] answers [t] and changes nothing. *)
Definition answers (y : system) (ev : environment) (m : mgr) (name : string) (args : list str) (t : str) : Prop :=
  process y ev m (Request (lit name) args) = Ok (Answer t true, m).

(** The command fails and changes nothing. *)
Definition refuses (y : system) (ev : environment) (m : mgr) (name : string) (args : list str) : Prop :=
  exists t, process y ev m (Request (lit name) args) = Ok (Answer t false, m).

Definition newline : ascii := ascii_of_nat 10.

(** The text made of these lines, each of them ended. *)
Inductive text_lines : list str -> str -> Prop :=
  | tl_none : text_lines [] []
  | tl_line : forall l ls t, text_lines ls t -> text_lines (l :: ls) (l ++ newline :: t).

(** The items separated by a text. *)
Inductive separated (sep : str) : list str -> str -> Prop :=
  | se_none : separated sep [] []
  | se_one : forall w, separated sep [w] w
  | se_more : forall w x l s, separated sep (x :: l) s -> separated sep (w :: x :: l) (w ++ sep ++ s).

(** A path that designates an element, or slashes for the root. *)
Definition designates (root : elem) (a : str) (p : list nat) : Prop :=
  locate root a = Some p \/ a <> [] /\ Forall (fun c => c = "/"%char) a /\ p = [].

(** The order of the elements in the structure files: a parent before its children, siblings in their order. *)
Definition before (p q : list nat) : Prop :=
  (exists r, r <> [] /\ q = p ++ r) \/ exists r i j s t, i < j /\ p = r ++ i :: s /\ q = r ++ j :: t.

(** A path followed by the kind of the element. *)
Definition qualified (root : elem) (p : list nat) (line : str) : Prop :=
  exists e, elem_at root p = Some e /\ line = path_in root p ++ lit " [" ++ kind_text (e_kind e) ++ lit "]".

(** Every domain with this property, once. *)
Definition exactly (m : mgr) (P : domain -> Prop) (ds : list domain) : Prop :=
  NoDup ds /\ forall d, In d ds <-> In d (ds_list (mg_doms m)) /\ P d.

(** [p] is one of the elements of a domain. *)
Definition owned (m : mgr) (p : list nat) : Prop := exists d, In d (ds_list (mg_doms m)) /\ In p (dm_elems d).

(** Two domains hold the element at [q], or something above it. *)
Definition shared (m : mgr) (q : list nat) : Prop :=
  exists d d', In d (ds_list (mg_doms m)) /\ In d' (ds_list (mg_doms m)) /\ d <> d' /\ covers d q /\ covers d' q.

(** A title, over a rule of the same length. *)
Definition heading (t : string) : list str := [[]; lit t; repeat "="%char (String.length t)].

(** The configuration last applied, as it is shown. *)
Definition last_shown (d : domain) (t : str) : Prop :=
  (exists c, In c (dm_configs d) /\ dm_last d = Some (cf_id c) /\ t = cf_name c) \/ dm_last d = None /\ t = lit "<none>".

(** The configuration that the next application takes, as it is shown: nothing when it is the one last applied. *)
Definition pending_shown (cs : list criterion) (d : domain) (t : str) : Prop :=
  none_match cs d /\ t = lit "<none>"
  \/ exists c, first_match cs d c /\ (dm_last d = Some (cf_id c) /\ t = [] \/ dm_last d <> Some (cf_id c) /\ t = cf_name c).

(** The line of a domain in the status. *)
Definition domain_status (cs : list criterion) (d : domain) (line : str) : Prop :=
  exists a b, last_shown d a /\ pending_shown cs d b /\ line = dm_name d ++ lit ": " ++ a ++ lit " [" ++ b ++ lit "]".

Definition onoff (b : bool) : str := lit (if b then "on" else "off").

(** The same letters, whatever their case. *)
Definition spells (a w : str) : Prop :=
  Forall2 (fun c u => c = u \/ exists i, i < 26 /\ c = ascii_of_nat (97 + i) /\ u = ascii_of_nat (65 + i)) a w.

(** ": name" and " = value", when there is one. *)
Definition after (sep : string) (t : str) : str := match t with [] => [] | _ => lit sep ++ t end.

(** A line of a dump. *)
Definition dump_line (depth : nat) (kind name value : str) : str :=
  repeat " "%char (4 * depth) ++ lit "- " ++ kind ++ after ": " name ++ after " = " value.

(** The line of the element at [q] in the dump of the one at [p]: a parameter shows what getParameter answers for it. *)
Definition element_dumped (y : system) (m : mgr) (p q : list nat) (line : str) : Prop :=
  exists e v, elem_at (sy_root y) q = Some e /\ line = dump_line (List.length q - List.length p) (kind_text (e_kind e)) (e_name e) v
    /\ (if is_param (e_kind e) then get_parameter y (path_in (sy_root y) q) m = Ok v else v = []).

(** The lines of a rule in the dump of the domains. *)
Inductive rule_dumped (cs : list criterion) : nat -> rule -> list str -> Prop :=
  | rd_crit : forall depth c w v k, nth_error cs c = Some k ->
      rule_dumped cs depth (RCrit c w v)
        [dump_line depth (lit "SelectionCriterionRule") [] (cr_name k ++ lit " " ++ verb_text w ++ lit " " ++ match cty_literal (cr_type k) v with Some t => t | None => [] end)]
  | rd_comp : forall depth (all : bool) l ls, Forall2 (rule_dumped cs (S depth)) l ls ->
      rule_dumped cs depth (RComp all l) (dump_line depth (lit "CompoundRule") [] (lit (if all then "All" else "Any")) :: List.concat ls).

Definition config_dumped (cs : list criterion) (c : config) (ls : list str) : Prop :=
  exists rs, ls = dump_line 2 (lit "Configuration") (cf_name c) [] :: rs
    /\ match cf_rule c with Some r => rule_dumped cs 3 r rs | None => rs = [] end.

Definition domain_dumped (cs : list criterion) (d : domain) (ls : list str) : Prop :=
  exists a rs, last_shown d a
    /\ ls = dump_line 1 (lit "ConfigurableDomain") (dm_name d)
              (lit "{Sequence aware: " ++ lit (if dm_aware d then "yes" else "no") ++ lit ", Last applied configuration: " ++ a ++ lit "}") :: List.concat rs
    /\ Forall2 (config_dumped cs) (dm_configs d) rs.

(** What the commands that import mean; extra arguments are ignored. *)
Inductive imports : string -> list str -> import -> Prop :=
  | i_domains : forall f r, imports "importDomainsXML" (f :: r) (IDomains f false true)
  | i_domains_settings : forall f r, imports "importDomainsWithSettingsXML" (f :: r) (IDomains f true true)
  | i_domains_text : forall t r, imports "setDomainsWithSettingsXML" (t :: r) (IDomains t true false)
  | i_domain : forall f, imports "importDomainWithSettingsXML" [f] (IDomain f false true true)
  | i_domain_over : forall f r, imports "importDomainWithSettingsXML" (f :: lit "overwrite" :: r) (IDomain f true true true)
  | i_domain_text : forall t, imports "setDomainWithSettingsXML" [t] (IDomain t false true false)
  | i_domain_text_over : forall t r, imports "setDomainWithSettingsXML" (t :: lit "overwrite" :: r) (IDomain t true true false).

(** The text of a number in a given base, most significant digit first. *)
Definition hex_digit (n : nat) : ascii := nth n (lit "0123456789abcdef") "?"%char.

(** What is shown of a criterion: its possible states and the state it is in. *)
Definition states_shown (k : criterion) (t : str) : Prop := exists s, separated (lit ", ") (map fst (cty_map (cr_type k))) s /\ t = lit "{" ++ s ++ lit "}".
Definition state_shown (k : criterion) : str := cty_formatted (cr_type k) (cr_state k).
Definition criterion_shown (k : criterion) (t : str) : Prop :=
  exists head s, states_shown k s
    /\ text_lines [[]; cr_name k ++ lit ":"; repeat "="%char (S (List.length (cr_name k)));
                   lit "Possible states (" ++ lit (if cty_incl (cr_type k) then "Inclusive" else "Exclusive") ++ lit "): " ++ s] head
    /\ t = head ++ lit "Current state = " ++ state_shown k.
Definition criterion_csv (k : criterion) (t : str) : Prop :=
  exists s, states_shown k s
    /\ t = lit "Criterion name: " ++ cr_name k ++ lit ", type kind: " ++ lit (if cty_incl (cr_type k) then "inclusive" else "exclusive")
           ++ lit ", current state: " ++ state_shown k ++ lit ", states: " ++ s.

(** A line that is there only when there is something to say. *)
Definition optional (name : string) (v : str) : list str := match v with [] => [] | _ => [lit name ++ lit ": " ++ v] end.

(** What is shown of the type of a value. *)
Definition scalar_shown (unit : str) (t : ptype) : list str :=
  optional "Unit" unit ++ [lit "Scalar size: " ++ print_dec (Z.of_nat (pt_size t)) ++ lit " byte(s) "]
  ++ match t with
     | PInt sg b lo hi => [lit "Signed: " ++ lit (if sg then "yes" else "no"); lit "Min: " ++ print_dec lo; lit "Max: " ++ print_dec hi]
     | PBool => []
     | PEnum _ ps => lit "Value Pairs:" :: map (fun x => ascii_of_nat 9 :: lit "Literal: """ ++ fst x ++ lit """, Numerical: " ++ print_dec (snd x)) ps
     | PFix _ n f => [lit "Notation: Q" ++ print_dec (Z.of_nat n) ++ lit "." ++ print_dec (Z.of_nat f)]
     | PFloat lo hi => [lit "Min:" ++ print_f6 lo; lit "Max:" ++ print_f6 hi]
     end.

(** What is shown of a kind of element. *)
Definition kind_shown (unit : str) (k : ekind) : list str :=
  match k with
  | KdBit t => [lit "Bit pos: " ++ print_dec (bt_pos t); lit "Bit size: " ++ print_dec (bt_size t); lit "Max: " ++ print_dec (bt_max t)]
  | KdString max => [lit "Max length: " ++ print_dec (Z.of_nat max)]
  | KdParam t => scalar_shown unit t
  | KdArray t len => scalar_shown unit t ++ [lit "Array length: " ++ print_dec (Z.of_nat len)]
  | _ => []
  end.

(** The numbers of this type are not the 8 bit integers. *)
Definition not_a_character (k : ekind) : Prop :=
  match k with KdParam (PInt _ b _ _) | KdArray (PInt _ b _ _) _ => b <> 1 | _ => True end.
