(** Model of the adaptation of a configuration file for the host (tools/xmlGenerator/hostConfig.py), that domainGenerator.py gives to
    the connector in place of the one of the target.
    Simplifications: the document is as libxml2 would read it (no namespaces, comments or processing instructions); the order of the
    attributes is not kept by Python and is not observed. *)
From Coq Require Import List Arith Bool Ascii String.
From Verif Require Import Base XmlModel FileModel.
Import ListNotations.
Local Open Scope nat_scope.

(** xml.dom.minidom setAttribute: replaced if there, else added. *)
Fixpoint set_attr (nm v : str) (l : list (str * str)) : list (str * str) :=
  match l with
  | [] => [(nm, v)]
  | (k, w) :: r => if str_eqb k nm then (k, v) :: r else (k, w) :: set_attr nm v r
  end.

(** xml.dom.minidom getAttribute: empty if not there. *)
Definition get_attr (nm : str) (l : list (str * str)) : str := match attr_find nm l with Some v => v | None => [] end.

(** hostConfig.py:48-53: the elements that are deleted. *)
Definition deleted (x : xnode) : bool := str_eqb (x_type x) (lit "Location") || str_eqb (x_type x) (lit "SettingsConfiguration").

(** hostConfig.py:43-46, 55-57: the attributes of one element. *)
Definition host_attrs (port path : option str) (type : str) (a : list (str * str)) : list (str * str) :=
  if str_eqb type (lit "ParameterFrameworkConfiguration") then
    set_attr (lit "TuningAllowed") (lit "true") (match port with Some p => set_attr (lit "ServerPort") p a | None => a end)
  else if str_eqb type (lit "StructureDescriptionFileLocation") then
    match path with Some p => set_attr (lit "Path") (p ++ lit "/" ++ get_attr (lit "Path") a) a | None => a end
  else a.

(** hostConfig.py:35-59 configure, for an element that is not deleted. *)
Fixpoint host_elem (port path : option str) (x : xnode) : xnode :=
  match x with
  | XText s => XText s
  | XElem type a content =>
      XElem type (host_attrs port path type a)
        ((fix go (l : list xnode) : list xnode :=
            match l with
            | [] => []
            | c :: r => if deleted c then go r else host_elem port path c :: go r
            end) content)
  end.

(** The document; [None]: nothing is left of it, and what is written can not be read again. *)
Definition configure (port path : option str) (x : xnode) : option xnode := if deleted x then None else Some (host_elem port path x).

(** domainGenerator.py:192-200: no port; the path is the folder of the configuration file. *)
Definition host_file (folder : str) (x : xnode) : option xnode := configure None (Some folder) x.
