(** Vocabulary of the statements about the settings recorded by configurations. *)
From Coq Require Import List Arith Bool Ascii String.
From Verif Require Import Base BlackboardModel TreeModel TreeSpec MemSpec SyncModel DomainModel DomainSpec MgrModel MgrSpec.
Import ListNotations.
Local Open Scope nat_scope.

(** The name by which a domain (resp. a configuration) is designated: that of its kind when its own is empty. *)
Definition shown (kind name : str) : str := match name with [] => kind | _ => name end.

(** The command does not edit the configuration designated by [dn] and [cn], nor its domain, nor what these names designate. *)
Definition spares (dn cn : str) (c : cmd) : Prop :=
  match c with
  | CSetConfigParameter d n _ _ | CSave d n | CDeleteConfig d n | CSequence d n _ => d <> dn \/ n <> cn
  | CDeleteDomain d | CAddElement d _ | CRemoveElement d _ | CSplit d _ => d <> dn
  | CDeleteAllDomains => False
  | CRenameDomain d n => d <> dn /\ shown (lit "ConfigurableDomain") n <> dn
  | CRenameConfig d n n' => d <> dn \/ (n <> cn /\ shown (lit "Configuration") n' <> cn)
  | _ => True
  end.

(** The two configurations record the same value for the element at [q]. *)
Definition same_record (root : elem) (q : list nat) (c c' : config) : Prop :=
  exists a a', In a (cf_areas c) /\ In a' (cf_areas c') /\ above (ar_pos a) q /\ above (ar_pos a') q
    /\ same_setting root q (offset root (ar_pos a)) (ar_bb a) (offset root (ar_pos a')) (ar_bb a').
