(** Model of the export and import of the settings of an element as XML (parameter/ConfigurableElement.cpp,
    parameter/BaseParameter.cpp, parameter/Parameter.cpp, parameter/ParameterMgr.cpp, xmlserializer/XmlElement.cpp,
    xmlserializer/XmlDocSource.cpp). *)
From Coq Require Import List Arith ZArith Bool Ascii String.
From Verif Require Import Base TextModel ParamTypeModel BlackboardModel BitModel ArrayModel TreeModel SyncModel DomainModel MgrModel.
Import ListNotations.
Local Open Scope nat_scope.

(** ** Documents *)

(** A node of a document: a text, or an element with its type (the tag), its attributes and its content.
    Simplification: the text of the document itself is not modelled; libxml2 is trusted to write and parse it so that the
    types, the attributes, the nesting of the elements and the texts of the elements that contain no element are kept.
    Comments and processing instructions are left out. *)
Inductive xnode := XText (s : str) | XElem (type : str) (attrs : list (str * str)) (content : list xnode).

(** XmlElement.cpp:52-55 getType. *)
Definition x_type (x : xnode) : str := match x with XElem t _ _ => t | XText _ => [] end.
Definition x_content (x : xnode) : list xnode := match x with XElem _ _ c => c | XText _ => [] end.

(** XmlElement.cpp:82-96 getAttribute(string). *)
Fixpoint attr_find (nm : str) (l : list (str * str)) : option str :=
  match l with
  | [] => None
  | (k, v) :: r => if str_eqb k nm then Some v else attr_find nm r
  end.
Definition x_attr (nm : str) (x : xnode) : option str := match x with XElem _ a _ => attr_find nm a | XText _ => None end.

(** The same when an absent attribute counts as empty (XmlElement.cpp:115-120 getNameAttribute, and the callers that do not
    test the result). *)
Definition x_attr0 (nm : str) (x : xnode) : str := match x_attr nm x with Some v => v | None => [] end.
Definition x_name (x : xnode) : str := x_attr0 (lit "Name") x.

(** XmlElement.cpp:122-134 getTextContent (xmlNodeGetContent): the texts of all the descendants. *)
Fixpoint x_text (x : xnode) : str := match x with XText s => s | XElem _ _ c => List.concat (map x_text c) end.

(** XmlElement.cpp:247-263 CChildIterator: the nodes that are not elements are skipped. *)
Definition is_elem (x : xnode) : bool := match x with XElem _ _ _ => true | XText _ => false end.
Definition x_elems (x : xnode) : list xnode := filter is_elem (x_content x).

(** ** Settings *)

(** getXmlElementName: Element.cpp:531-535, ComponentInstance.cpp:48-53, InstanceConfigurableElement.cpp:52-55. *)
Definition xml_name (k : ekind) : str := match k with KdComponent => lit "ParameterBlock" | _ => kind_text k end.

(** handleValueSpaceAttribute, importing (FixedPointParameterType.cpp:71-88, FloatingPointParameterType.cpp:60-82,
    ParameterType.h for the other types, Parameter.cpp:51-71): the value space of the access from this element on.  Bit and
    string parameters are not CParameter. *)
Definition spaced (k : ekind) : bool :=
  match k with KdParam t | KdArray t _ => match t with PFix _ _ _ | PFloat _ _ => true | _ => false end | _ => false end.
Definition value_space (k : ekind) (x : xnode) (raw : bool) : bool :=
  if spaced k then str_eqb (x_attr0 (lit "ValueSpace") x) (lit "Raw") else raw.

(** ConfigurableElement.cpp:106-131: the type of the child element of the document against the one expected. *)
Definition type_matches (k : ekind) (x : xnode) : bool :=
  str_eqb (x_type x) (xml_name k)
  || (str_eqb (xml_name k) (lit "ParameterBlock") && str_eqb (x_type x) (lit "Component")).

(** serializeXmlSettings, importing: BaseParameter.cpp:47-77 (a parameter takes the text), Parameter.cpp:51-59 (after its
    value space), then ConfigurableElement.cpp:80-193 (the children in order, no child element left over).
    [off]: offset of the element, [base]: offset of the memory.  Result: success, value space and memory; what was written
    before a refusal stays. *)
Fixpoint import_settings (e : elem) (x : xnode) (off base : nat) (hex raw : bool) (bb : blackboard)
  : outcome (bool * bool * blackboard) :=
  match e with
  | Elem _ k cs =>
      let raw' := value_space k x raw in
      do r <- (if is_param k then leaf_set k (Fmt raw' hex) [] (x_text x) off base bb else Ok (true, bb));
      if fst r then
        (fix go (cs : list elem) (xs : list xnode) (off : nat) (raw : bool) (bb : blackboard)
           : outcome (bool * bool * blackboard) :=
           match cs with
           | [] => Ok (match xs with [] => true | _ => false end, raw, bb)
           | c :: cr =>
               match xs with
               | [] => Ok (false, raw, bb)
               | xc :: xr =>
                   if negb (type_matches (e_kind c) xc) then Ok (false, raw, bb)
                   else if negb (str_eqb (x_name xc) (e_name c)) then Ok (false, raw, bb)
                   else do r <- import_settings c xc off base hex raw bb;
                        let '(ok, raw1, bb1) := r in
                        if ok then go cr xr (off + footprint c) raw1 bb1 else Ok (false, raw1, bb1)
               end
           end) cs (x_elems x) off raw' (snd r)
      else Ok (false, raw', snd r)
  end.

(** serializeXmlSettings, exporting: the value space when raw, the text of a parameter (its reading cannot fail), the name,
    and one child element per child. *)
Fixpoint export_settings (e : elem) (off base : nat) (f : fmt) (bb : blackboard) : outcome xnode :=
  match e with
  | Elem nm k cs =>
      do text <- (if is_param k then omap (fun s => [XText s]) (leaf_get k f [] off base bb) else Ok []);
      do subs <- (fix go (cs : list elem) (off : nat) : outcome (list xnode) :=
                    match cs with
                    | [] => Ok []
                    | c :: r => do x <- export_settings c off base f bb; do xs <- go r (off + footprint c); Ok (x :: xs)
                    end) cs off;
      Ok (XElem (xml_name k)
                ((if spaced k && f_raw f then [(lit "ValueSpace", lit "Raw")] else []) ++ [(lit "Name", nm)])
                (text ++ subs))
  end.

(** ** The manager *)

(** ParameterMgr.cpp:1522-1546 getSettingsAsXML, and 1578-1595 getElementXMLCommandProcess once the element is found. *)
Definition get_xml (y : system) (p : pos) (m : mgr) : outcome xnode :=
  match elem_at (sy_root y) p with
  | None => Err
  | Some e => export_settings e (offset (sy_root y) p) 0 (mg_fmt m) (mg_main m)
  end.

(** XmlDocSource.cpp:115-160 populate: type of the root element and, for an element that has a name, its name.
    Simplification: validation against the schemas is off. *)
Definition root_accepted (e : elem) (x : xnode) : bool :=
  str_eqb (x_type x) (xml_name (e_kind e))
  && (match e_name e with [] => true | n => str_eqb (x_name x) n end).

(** ParameterMgr.cpp:1548-1576 setSettingsAsXML. *)
Definition set_xml (y : system) (p : pos) (x : xnode) (m : mgr) : outcome (bool * mgr) :=
  match elem_at (sy_root y) p with
  | None => Ok (false, m)
  | Some e =>
      if root_accepted e x then
        do r <- import_settings e x (offset (sy_root y) p) 0 (mg_hex m) (mg_raw m) (mg_main m);
        let '(ok, _, bb) := r in
        if ok then
          if mg_autosync m then
            let '(ok, _, tr) := sync_set y (syncer_set y p) bb (mg_trace m) in Ok (ok, with_trace (with_main m bb) tr)
          else Ok (true, with_main m bb)
        else Ok (false, with_main m bb)
      else Ok (false, m)
  end.

(** ParameterMgr.cpp:1578-1618: the commands getElementXML and setElementXML. *)
Definition get_element_xml (y : system) (path : str) (m : mgr) : outcome xnode :=
  match locate (sy_root y) path with None => Err | Some p => get_xml y p m end.
Definition set_element_xml (y : system) (path : str) (x : xnode) (m : mgr) : outcome (bool * mgr) :=
  tuned m (match locate (sy_root y) path with None => Ok (false, m) | Some p => set_xml y p x m end).
