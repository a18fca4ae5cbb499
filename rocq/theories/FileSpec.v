(** Vocabulary of the statements about the start from files. *)
From Coq Require Import List Arith ZArith Bool Ascii String Permutation.
From Verif Require Import Base TextModel CriterionModel TreeModel TreeSpec SyncModel DomainModel DomainSpec MgrModel MgrSpec LoadModel LoadSpec XmlModel DomXmlModel DomXmlSpec DomXmlHist
  MapModel TypeModel DeclModel DeclSpec FileModel.
Import ListNotations.
Local Open Scope nat_scope.

(** ** The configuration file *)

(** The files of a Location element. *)
Definition located (l : xnode) : list str :=
  map (fun p => match x_attr0 (lit "Folder") l with [] => x_name p | f => f ++ lit "/" ++ x_name p end) (x_elems l).

(** A configuration file that follows its schema, its port on 16 bits, and what it says: the name of the system, whether tuning is allowed, the port, the
    files of the plugins, the path of the structure, the path of the settings if any. *)
Definition configures (x : xnode) (nm : str) (tuning : bool) (port : Z) (plugins : list str) (structure : str) (settings : option str) : Prop :=
  x_type x = lit "ParameterFrameworkConfiguration" /\ (forall a s, x_attr a x = Some s -> ~ In "012"%char s)
  /\ nm = x_attr0 (lit "SystemClassName") x /\ nm <> [] /\ bool_attr (lit "TuningAllowed") false x tuning /\ int_attr false 2 (lit "ServerPort") 0 x port
  /\ exists sp st rest, x_elems x = sp :: st :: rest
     /\ x_type sp = lit "SubsystemPlugins" /\ x_name sp = [] /\ (forall l, In l (x_elems sp) -> x_type l = lit "Location")
     /\ plugins = flat_map located (x_elems sp)
     /\ x_type st = lit "StructureDescriptionFileLocation" /\ x_attr (lit "Path") st = Some structure /\ structure <> []
     /\ ((rest = [] /\ settings = None)
         \/ exists se cl p, rest = [se] /\ x_type se = lit "SettingsConfiguration" /\ x_elems se = [cl]
              /\ x_type cl = lit "ConfigurableDomainsFileLocation" /\ x_attr (lit "Path") cl = Some p /\ p <> [] /\ settings = Some p).

(** ** Plugins *)

(** The files of the list open one after the other, those of [before] being open. *)
Inductive opening (opens : list str -> str -> bool) : list str -> list str -> Prop :=
| op_nil : forall before, opening opens before []
| op_cons : forall before f r, opens before f = true -> opening opens (before ++ [f]) r -> opening opens before (f :: r).

(** A library that opens still does when more are open. *)
Definition monotone (opens : list str -> str -> bool) : Prop :=
  forall l l' f, incl l l' -> opens l f = true -> opens l' f = true.

(** No two of the files bring the same subsystem type, nor the type Virtual. *)
Definition types_apart (brings : str -> list (str * plugin)) (files : list str) : Prop :=
  forall f f' t p p', In f files -> In f' files -> In (t, p) (brings f) -> In (t, p') (brings f') -> f = f' /\ p = p' /\ t <> lit "Virtual".

(** ** The structure file *)

(** [d'] is the document [d] at the address [base] with the roots of the included files in place of the includes. *)
Definition spliced_child (ou : outer) (base : str) (c c' : xnode) : Prop :=
  (x_type c <> lit "SubsystemInclude" /\ c' = c)
  \/ (x_type c = lit "SubsystemInclude" /\ x_type c' = lit "Subsystem"
      /\ exists u, ou_uri ou base (x_attr0 (lit "Path") c) = Some u /\ ou_doc ou u = Some c').
Definition spliced (ou : outer) (base : str) (d d' : xnode) : Prop :=
  x_type d' = x_type d /\ x_name d' = x_name d /\ Forall2 (spliced_child ou base) (x_elems d) (x_elems d').

(** ** The settings file *)

(** The domains that the start takes from the settings: none without a settings file; those of the document when it is accepted;
    none when there is no document or it is refused, if that is not a failure. *)
Definition settings_taken (ou : outer) (pol : policy) (uri : str) (settings : option str) (y : system) (cs : list criterion) (s : domains) : Prop :=
  match settings with
  | None => s = Domains [] [] 0
  | Some p =>
      exists u, ou_uri ou uri p = Some u
        /\ match ou_doc ou u with
           | None => po_fail_settings pol = false /\ s = Domains [] [] 0
           | Some x => exists b, import_all y cs true x (Domains [] [] 0) = Ok (b, s) /\ (b = true \/ po_fail_settings pol = false)
           end
  end.

(** ** All of it *)

(** Files around the configuration that are good: the addresses can be made, the subsystems of the structure, included or
    not, follow the schemas, their bit fields are apart, the plugins have at most 32 context keys, the hardware answers with the right sizes, the settings follow
    the schema. *)
Definition files_good (ou : outer) (uri structure : str) (settings : option str) : Prop :=
  (forall base path, ou_uri ou base path <> None)
  /\ (forall u d c c', ou_uri ou uri structure = Some u -> ou_doc ou u = Some d -> In c (x_elems d) -> spliced_child ou u c c' ->
        x_type c' = lit "Subsystem" /\ conforms c' /\ nested c' /\ flat_types c' /\ bits_apart c')
  /\ (forall f t p, In (t, p) (ou_brings ou f) -> List.length (pl_keys p) <= 32)
  /\ (forall y, answers_ok y (ou_answers ou y))
  /\ (forall p u x, settings = Some p -> ou_uri ou uri p = Some u -> ou_doc ou u = Some x -> domains_shaped x).
