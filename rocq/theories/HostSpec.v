(** Vocabulary: a configuration file adapted for the host. *)
From Coq Require Import List Arith Bool Ascii String.
From Verif Require Import Base XmlModel.
Import ListNotations.
Local Open Scope nat_scope.

(** What each attribute of an element becomes: the type of the element, the name, the value before, the value after. *)
Inductive host_attr (port path : option str) : str -> str -> option str -> option str -> Prop :=
| ha_tuning : forall b, host_attr port path (lit "ParameterFrameworkConfiguration") (lit "TuningAllowed") b (Some (lit "true"))
| ha_port : forall b p, port = Some p -> host_attr port path (lit "ParameterFrameworkConfiguration") (lit "ServerPort") b (Some p)
| ha_path : forall b d, path = Some d -> host_attr port path (lit "StructureDescriptionFileLocation") (lit "Path") b (Some (d ++ lit "/" ++ match b with Some v => v | None => [] end))
| ha_same : forall type nm b,
    ~ (type = lit "ParameterFrameworkConfiguration" /\ nm = lit "TuningAllowed") ->
    (port <> None -> ~ (type = lit "ParameterFrameworkConfiguration" /\ nm = lit "ServerPort")) ->
    (path <> None -> ~ (type = lit "StructureDescriptionFileLocation" /\ nm = lit "Path")) ->
    host_attr port path type nm b b.

Definition gone (x : xnode) : Prop := x_type x = lit "Location" \/ x_type x = lit "SettingsConfiguration".

(** A document and what it becomes: the same, without the elements that go, and with attributes changed as said. *)
Inductive adapted (port path : option str) : xnode -> xnode -> Prop :=
| ad_text : forall s, adapted port path (XText s) (XText s)
| ad_elem : forall t a a' c c', (forall nm, host_attr port path t nm (attr_find nm a) (attr_find nm a')) -> all_adapted port path c c' -> adapted port path (XElem t a c) (XElem t a' c')
with all_adapted (port path : option str) : list xnode -> list xnode -> Prop :=
| aa_nil : all_adapted port path [] []
| aa_gone : forall x l l', gone x -> all_adapted port path l l' -> all_adapted port path (x :: l) l'
| aa_kept : forall x x' l l', ~ gone x -> adapted port path x x' -> all_adapted port path l l' -> all_adapted port path (x :: l) (x' :: l').
