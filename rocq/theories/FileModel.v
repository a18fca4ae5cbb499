(** Model of the start from files: the configuration file (parameter/ParameterFrameworkConfiguration.cpp,
    FrameworkConfigurationLocation.cpp, PluginLocation.cpp), the loading of the plugins (SystemClass.cpp), the structure file and the
    files that it includes (XmlFileIncluderElement.cpp), the settings file, and the order of all that (ParameterMgr.cpp load).
    Simplifications: the messages are not modelled; libxml2 makes a document of a file, XInclude resolved, or refuses it; validation
    with schemas is off, as by default; the address of a file relative to another one is given by libxml2. *)
From Coq Require Import List Arith ZArith Bool Ascii String.
From Verif Require Import Base TextModel ParamTypeModel BlackboardModel TreeModel CriterionModel MapModel TypeModel SyncModel DomainModel MgrModel LoadModel XmlModel DomXmlModel DeclModel.
Import ListNotations.
Local Open Scope nat_scope.

(** What is around the framework: the address of a relative path ([None]: it cannot be made), the document of an address ([None]:
    it cannot be read), whether a library opens and has the entry point once others are open, the subsystem types that it brings,
    what the objects of a system give at the start and accept afterwards, and whether the remote server starts on a port. *)
Record outer := Outer {
  ou_uri : str -> str -> option str;
  ou_doc : str -> option xnode;
  ou_opens : list str -> str -> bool;
  ou_brings : str -> list (str * plugin);
  ou_answers : system -> nat -> option (list byte);
  ou_hw : list event -> nat -> bool;
  ou_server : Z -> bool }.

(** ParameterMgr.h: _bFailOnMissingSubsystem, _bFailOnFailedSettingsLoad, _bForceNoRemoteInterface. *)
Record policy := Policy { po_fail_missing : bool; po_fail_settings : bool; po_no_remote : bool }.

(** ** The configuration file *)

(** An element of the configuration: its kind, its name, its path or folder, the plugins of a location, its children. *)
Inductive celem := CElem (kind name place : str) (plugins : list str) (children : list celem).
Definition ce_kind (c : celem) : str := match c with CElem k _ _ _ _ => k end.
Definition ce_name (c : celem) : str := match c with CElem _ n _ _ _ => n end.
Definition ce_place (c : celem) : str := match c with CElem _ _ p _ _ => p end.
Definition ce_plugins (c : celem) : list str := match c with CElem _ _ _ ps _ => ps end.
Definition ce_children (c : celem) : list celem := match c with CElem _ _ _ _ cs => cs end.

(** Element.cpp:144-190 fromXml, with ParameterMgr.cpp:2738-2759 (the elements that can be created); PluginLocation.cpp:49-66,
    FrameworkConfigurationLocation.cpp:42-56; ParameterFrameworkConfiguration.cpp:63-77 for one inside another element, whose
    exceptions the outer element catches. *)
Fixpoint config_elem (x : xnode) : outcome celem :=
  match x with
  | XText _ => Err
  | XElem type _ content =>
      let below := (fix go (l : list xnode) : outcome (list celem) :=
        match l with
        | [] => Ok []
        | XText _ :: r => go r
        | c :: r => do e <- config_elem c; do es <- go r; Ok (e :: es)
        end) in
      if str_eqb type (lit "Location") then Ok (CElem type (x_name x) (x_attr0 (lit "Folder") x) (map x_name (x_elems x)) [])
      else if str_eqb type (lit "StructureDescriptionFileLocation") || str_eqb type (lit "ConfigurableDomainsFileLocation") then
        match x_attr0 (lit "Path") x with [] => Err | p => Ok (CElem type (x_name x) p [] []) end
      else if str_eqb type (lit "SubsystemPlugins") || str_eqb type (lit "SettingsConfiguration") then
        do cs <- below content; Ok (CElem type (x_name x) [] [] cs)
      else if str_eqb type (lit "ParameterFrameworkConfiguration") then
        do _ <- attr_bool (lit "TuningAllowed") false x;
        do _ <- attr_num t_uint16 (lit "ServerPort") 0 x;
        do cs <- below content; Ok (CElem type [] [] [] cs)
      else Err
  end.

(** The configuration: ParameterFrameworkConfiguration.h. *)
Record conf := Conf { cn_name : str; cn_tuning : bool; cn_port : Z; cn_children : list celem }.

(** An exception that nothing catches leaves the call. *)
Definition escaping {A} (o : outcome A) : outcome A := match o with Err => Abort | _ => o end.

(** ParameterMgr.cpp:427-463 loadFrameworkConfiguration, ParameterFrameworkConfiguration.cpp:63-77: the attributes are read outside
    of the block that catches exceptions. *)
Definition load_configuration (ou : outer) (uri : str) : outcome conf :=
  match ou_doc ou uri with
  | None => Err
  | Some x =>
      if str_eqb (x_type x) (lit "ParameterFrameworkConfiguration") then
        do t <- escaping (attr_bool (lit "TuningAllowed") false x);
        do p <- escaping (attr_num t_uint16 (lit "ServerPort") 0 x);
        do cs <- each config_elem (x_elems x);
        Ok (Conf (x_attr0 (lit "SystemClassName") x) t p cs)
      else Err
  end.

(** Element.cpp:267-276 getPathName, 477-488 findChild, 502-513 findChildOfKind. *)
Definition ce_path_name (c : celem) : str := match ce_name c with [] => ce_kind c | n => n end.
Definition child_named (n : str) (l : list celem) : option celem := find (fun c => str_eqb (ce_path_name c) n) l.
Definition child_of_kind (k : str) (l : list celem) : option celem := find (fun c => str_eqb (ce_kind c) k) l.

(** ** Plugins *)

(** SystemClass.cpp:124-150: the files of the plugins.  [UB]: the elements are cast to locations. *)
Definition location_files (c : celem) : outcome (list str) :=
  if str_eqb (ce_kind c) (lit "Location") then
    Ok (map (fun n => (match ce_place c with [] => [] | f => f ++ lit "/" end) ++ n) (ce_plugins c))
  else UB.
Definition plugin_files (c : celem) : outcome (list str) := omap (@List.concat str) (each location_files (ce_children c)).

(** SystemClass.cpp:179-221 loadPlugins: one pass; the files opened so far, the files left. *)
Fixpoint plugin_pass (opens : list str -> str -> bool) (loaded files : list str) : list str * list str :=
  match files with
  | [] => (loaded, [])
  | f :: r =>
      if opens loaded f then plugin_pass opens (loaded ++ [f]) r
      else let z := plugin_pass opens loaded r in (fst z, f :: snd z)
  end.

(** SystemClass.cpp:152-176: passes until one opens nothing; [fuel]: the number of files is enough. *)
Fixpoint plugin_loop (fuel : nat) (opens : list str -> str -> bool) (loaded files : list str) : list str * list str :=
  match files with
  | [] => (loaded, [])
  | _ :: _ =>
      let z := plugin_pass opens loaded files in
      if List.length (snd z) =? List.length files then z
      else match fuel with O => z | S k => plugin_loop k opens (fst z) (snd z) end
  end.
Definition load_plugins (opens : list str -> str -> bool) (files : list str) : list str * list str :=
  plugin_loop (List.length files) opens [] files.

(** VirtualSubsystem.cpp; the subsystems that are there without plugin. *)
Definition virtual_plugin : plugin := Plugin [] [] true.

(** SystemClass.cpp:95-119, ElementLibrary.cpp:61-65 (the last one replaces the ones before), DefaultElementLibrary.h:78-97. *)
Definition library (ou : outer) (fallback : bool) (loaded : list str) (type : str) : option plugin :=
  match find (fun b => str_eqb (fst b) type) (rev ((lit "Virtual", virtual_plugin) :: flat_map (ou_brings ou) loaded)) with
  | Some b => Some (snd b)
  | None => if fallback then Some virtual_plugin else None
  end.

(** ** The structure *)

(** XmlFileIncluderElement.cpp:49-102, in the system class: the root of the file takes the place of the element.  An address that
    cannot be made is a failed ALWAYS_ASSERT. *)
Definition load_child (ou : outer) (lib : str -> option plugin) (fuel : nat) (base : str) (x : xnode) : outcome (str * (subsystem * list inst)) :=
  if str_eqb (x_type x) (lit "SubsystemInclude") then
    match ou_uri ou base (x_attr0 (lit "Path") x) with
    | None => Abort
    | Some u =>
        match ou_doc ou u with
        | None => Err
        | Some r => if str_eqb (x_type r) (lit "Subsystem") then load_subsystem lib fuel r else Err
        end
    end
  else load_subsystem lib fuel x.

(** XmlDocSource.cpp:115-160 populate, Subsystem.cpp:157-180, as load_system: any name when the configuration gives none. *)
Definition load_tree (ou : outer) (lib : str -> option plugin) (fuel : nat) (nm base : str) (x : xnode) : outcome system :=
  if str_eqb (x_type x) (lit "SystemClass") && (match nm with [] => true | _ => str_eqb (x_name x) nm end) then
    do subs <- each (load_child ou lib fuel base) (x_elems x);
    do objs <- map_subsystems (map snd subs);
    Ok (Sys (Elem nm KdSystem (sub_elems (map fst subs) (map snd subs))) (fun p => rank p (holders (map snd subs) objs 0) 0) (ou_hw ou))
  else Err.

(** ParameterMgr.cpp:488-538 loadStructure. *)
Definition load_structure_file (ou : outer) (lib : str -> option plugin) (fuel : nat) (uri : str) (c : conf) : outcome system :=
  match child_of_kind (lit "StructureDescriptionFileLocation") (cn_children c) with
  | None => Err
  | Some l =>
      match ou_uri ou uri (ce_place l) with
      | None => Abort
      | Some u => match ou_doc ou u with None => Err | Some x => load_tree ou lib fuel (cn_name c) u x end
      end
  end.

(** ** The settings *)

(** ParameterMgr.cpp:561-617 loadSettingsFromConfigFile, 540-559 loadSettings. *)
Definition load_settings_file (ou : outer) (pol : policy) (uri : str) (c : conf) (y : system) (cs : list criterion) : outcome domains :=
  let none := Domains [] [] 0 in
  let failed := if po_fail_settings pol then Err else Ok none in
  match child_of_kind (lit "SettingsConfiguration") (cn_children c) with
  | None => Ok none
  | Some g =>
      match child_of_kind (lit "ConfigurableDomainsFileLocation") (ce_children g) with
      | None => failed
      | Some l =>
          match ou_uri ou uri (ce_place l) with
          | None => Abort
          | Some u =>
              match ou_doc ou u with
              | None => failed
              | Some x => do z <- import_all y cs true x none; if fst z then Ok (snd z) else if po_fail_settings pol then Err else Ok (snd z)
              end
          end
      end
  end.

(** ** The start *)

(** ParameterMgr.cpp:357-425 load, 465-486 loadSubsystems, 2839-2877 the remote server.  [Ok]: started; [Err]: refused. *)
Definition start_files (ou : outer) (pol : policy) (fuel : nat) (uri : str) (cs : list criterion) : outcome (system * mgr) :=
  do c <- load_configuration ou uri;
  match child_named (lit "SubsystemPlugins") (cn_children c) with
  | None => Err
  | Some sp =>
      if str_eqb (ce_kind sp) (lit "SubsystemPlugins") then
        do files <- plugin_files sp;
        let z := load_plugins (ou_opens ou) files in
        if po_fail_missing pol && negb (List.length (snd z) =? 0) then Err
        else
          do y <- load_structure_file ou (library ou (negb (po_fail_missing pol)) (fst z)) fuel uri c;
          do s <- load_settings_file ou pol uri c y cs;
          do m <- start_up y (ou_answers ou y) (cn_tuning c) cs s;
          if negb (po_no_remote pol) && cn_tuning c && negb (ou_server ou (cn_port c)) then Err else Ok (y, m)
      else UB
  end.
