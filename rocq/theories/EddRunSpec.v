(** Vocabulary: what the framework has when it has carried out the commands of an EDD file. *)
From Coq Require Import List Arith Bool Ascii String.
From Verif Require Import Base CriterionModel RuleModel TreeModel TreeSpec DomainModel MgrModel CatSpec RemoteSpec GenSpec EddModel EddSpec.
Import ListNotations.
Local Open Scope nat_scope.

(** A command of the script as a request to the framework. *)
Definition as_request (c : EddModel.command) : string * list str :=
  match c with n :: args => (string_of_list_ascii n, args) | [] => (EmptyString, []) end.

(** No blank at the ends of the words: the framework would remove them. *)
Definition tidy (s : str) : Prop := RemoteSpec.trimmed s s.

(** The parameter that a path is the name of. *)
Definition names_parameter (root : elem) (path : str) (p : list nat) : Prop := locate root path = Some p /\ exists e, param_at root p e.

(** A configuration as the file says it: its name, its rule, the order of its parameters. *)
Definition conf_as_said (root : elem) (cs : list criterion) (w v : place) (c : vconf) : Prop :=
  vc_name c = full_conf v
  /\ (exists r, vc_rule c = Some r /\ forall old, set_application_rule cs (rule_for v) old = Ok (true, Some r))
  /\ Forall2 (names_parameter root) (if is_aware w then elements [] (target v) else added w) (vc_order c).

(** A domain as the file says it. *)
Definition domain_as_said (root : elem) (cs : list criterion) (w : place) (d : vdom) : Prop :=
  vd_name d = full_domain w /\ vd_aware d = is_aware w
  /\ Forall2 (names_parameter root) (added w) (vd_elems d)
  /\ Forall2 (conf_as_said root cs w) (confs_of w) (vd_confs d).
