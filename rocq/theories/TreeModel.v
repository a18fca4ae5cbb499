(** Model of the instantiated structure: the tree of configurable elements, its memory layout, its paths and the access
    to the parameters by path (parameter/Element.cpp, ConfigurableElement.cpp, PathNavigator.cpp, ElementLocator.cpp,
    BaseParameter.cpp, ParameterMgr.cpp). *)
From Coq Require Import List Arith ZArith Bool Ascii String Lia.
From Verif Require Import Base TextModel RealModel ParamTypeModel BlackboardModel BitModel ArrayModel.
Import ListNotations.
Local Open Scope nat_scope.

(** The classes of elements: CSystemClass, CSubsystem, CParameterBlock, CComponent, CBitParameterBlock (size in bytes),
    CBitParameter, CParameter, CArrayParameter (length), CStringParameter (MaxLength).
    Simplification: the type element of an instance is folded into the instance; the parent pointer is represented by
    the position of an element in the tree. *)
Inductive ekind :=
| KdSystem | KdSubsystem | KdBlock | KdComponent
| KdBitBlock (bytes : nat) | KdBit (t : bittype)
| KdParam (t : ptype) | KdArray (t : ptype) (len : nat) | KdString (max : nat).

Inductive elem := Elem (name : str) (kind : ekind) (children : list elem).

Definition e_name (e : elem) : str := match e with Elem n _ _ => n end.
Definition e_kind (e : elem) : ekind := match e with Elem _ k _ => k end.
Definition e_children (e : elem) : list elem := match e with Elem _ _ cs => cs end.

(** A position: the child indices from the root (the system class, child of the parameter manager). *)
Notation pos := (list nat) (only parsing).

Fixpoint elem_at (e : elem) (p : pos) : option elem :=
  match p with
  | [] => Some e
  | i :: r => match nth_error (e_children e) i with Some c => elem_at c r | None => None end
  end.

(** getKind: SystemClass.cpp:77-80, Subsystem.cpp:77-80, InstanceConfigurableElement.cpp:46-50 and the getKind of the type
    elements (ParameterBlockType.cpp:40, ComponentInstance.cpp:43, BitParameterBlockType.cpp:42, BitParameterType.cpp:47,
    BaseIntegerParameterType.cpp:39, BooleanParameterType.cpp:41, EnumParameterType.cpp:45, FixedPointParameterType.cpp:51,
    FloatingPointParameterType.cpp:47, StringParameterType.cpp:43). *)
Definition kind_text (k : ekind) : str :=
  match k with
  | KdSystem => lit "SystemClass"
  | KdSubsystem => lit "Subsystem"
  | KdBlock => lit "ParameterBlock"
  | KdComponent => lit "ComponentInstance"
  | KdBitBlock _ => lit "BitParameterBlock"
  | KdBit _ => lit "BitParameter"
  | KdParam t | KdArray t _ =>
      match t with
      | PInt _ _ _ _ => lit "IntegerParameter"
      | PBool => lit "BooleanParameter"
      | PEnum _ _ => lit "EnumParameter"
      | PFix _ _ _ => lit "FixedPointParameter"
      | PFloat _ _ => lit "FloatingPointParameter"
      end
  | KdString _ => lit "StringParameter"
  end.

(** BaseParameter.cpp:89-92 / ConfigurableElement.cpp:640-643 isParameter. *)
Definition is_param (k : ekind) : bool :=
  match k with KdBit _ | KdParam _ | KdArray _ _ | KdString _ => true | _ => false end.

(** ** Layout *)

(** getFootPrint: ConfigurableElement.cpp:355-369, Parameter.cpp:73-76, ArrayParameter.cpp:49-52, StringParameter.cpp:50-58,
    BitParameterBlock.cpp:50-59, BitParameter.cpp:60-64. *)
Fixpoint footprint (e : elem) : nat :=
  match e with
  | Elem _ k cs =>
      match k with
      | KdParam t => pt_size t
      | KdArray t len => array_footprint t len
      | KdString max => string_size max
      | KdBitBlock b => b
      | KdBit _ => 0
      | _ => list_sum (map footprint cs)
      end
  end.

(** ConfigurableElement.cpp:330-347 setOffset: offset given to the element at position [p] when the element [e] is given
    [off]. *)
Fixpoint offset_in (e : elem) (p : pos) (off : nat) : nat :=
  match p with
  | [] => off
  | i :: r => match nth_error (e_children e) i with
              | Some c => offset_in c r (off + list_sum (map footprint (firstn i (e_children e))))
              | None => off
              end
  end.

(** ParameterMgr.cpp:532: offsets start at 0. *)
Definition offset (root : elem) (p : pos) : nat := offset_in root p 0.

(** ParameterMgr.cpp:535 size of the main blackboard, with the zero bytes of ParameterBlackboard.cpp:36-39. *)
Definition initial_blackboard (root : elem) : blackboard := bb_set_size [] (footprint root).

(** Structures accepted at load time: a parameter has no child, bit parameters are the children of the bit blocks, and
    the types are accepted (see [pt_wf], [bit_wf]). *)
Definition bit_child_wf (b : nat) (c : elem) : bool :=
  match c with
  | Elem _ (KdBit t) [] => bit_wf t && (bt_block t =? b)
  | _ => false
  end.

Fixpoint elem_wf (e : elem) : bool :=
  match e with
  | Elem _ k cs =>
      match k with
      | KdParam t => pt_wf t && (List.length cs =? 0)
      | KdArray t len => pt_wf t && (1 <=? len) && (List.length cs =? 0)
      | KdString _ => List.length cs =? 0
      | KdBitBlock b => forallb (bit_child_wf b) cs
      | KdBit _ => false
      | _ => forallb elem_wf cs
      end
  end.

(** ** Paths *)

(** Element.cpp:267-276 getPathName. *)
Definition path_name (e : elem) : str :=
  match e_name e with [] => kind_text (e_kind e) | n => n end.

(** Element.cpp:516-524 getPath. *)
Fixpoint path_in (e : elem) (p : pos) : str :=
  lit "/" ++ path_name e ++
  match p with
  | [] => []
  | i :: r => match nth_error (e_children e) i with Some c => path_in c r | None => [] end
  end.

(** Element.cpp:464-488 findChild: index of the first child with that path name. *)
Fixpoint find_index (nm : str) (cs : list elem) : option nat :=
  match cs with
  | [] => None
  | c :: r => if str_eqb (path_name c) nm then Some 0
              else match find_index nm r with Some i => Some (S i) | None => None end
  end.

(** Element.cpp:413-449 findDescendant on the remaining items of the path. *)
Fixpoint find_desc (e : elem) (items : list str) : option pos :=
  match items with
  | [] => Some []
  | nm :: r =>
      match find_index nm (e_children e) with
      | None => None
      | Some i => match nth_error (e_children e) i with
                  | Some c => match find_desc c r with Some p => Some (i :: p) | None => None end
                  | None => None
                  end
      end
  end.

(** PathNavigator.cpp:38-45, 113-116: items of a path, [None] when it does not start with a slash.  The '[0]' of an empty
    string is NUL. *)
Definition path_items (path : str) : option (list str) :=
  match path with
  | c :: _ => if char_eqb c "/"%char then Some (split path (lit "/") true) else None
  | [] => None
  end.

(** ElementLocator.cpp:41-85 locate (strict). *)
Definition locate (root : elem) (path : str) : option pos :=
  match path_items path with
  | Some (nm :: r) => if str_eqb nm (e_name root) then find_desc root r else None
  | _ => None
  end.

(** ** Access to a parameter by path *)

(** ConfigurableElement.cpp:203-229 accessValue: the parameter reached by the items of the path, and the items left. *)
Fixpoint walk (e : elem) (items : list str) : option (pos * list str) :=
  if is_param (e_kind e) then Some ([], items)
  else match items with
       | [] => None
       | nm :: r =>
           match find_index nm (e_children e) with
           | None => None
           | Some i => match nth_error (e_children e) i with
                       | Some c => match walk c r with Some (p, rest) => Some (i :: p, rest) | None => None end
                       | None => None
                       end
           end
       end.

(** ParameterMgr.cpp:2096-2108 and PathNavigator.cpp:53-81 navigateThrough. *)
Definition param_of (root : elem) (path : str) : option (pos * list str) :=
  match path_items path with
  | Some (nm :: r) => if str_eqb nm (e_name root) then walk root r else None
  | _ => None
  end.

Definition committed (bb : blackboard) (o : outcome blackboard) : outcome (bool * blackboard) :=
  match o with Ok bb' => Ok (true, bb') | Err => Ok (false, bb) | Abort => Abort | UB => UB end.

(** BaseParameter.cpp:185-195 accessValue (147-173 access) and ArrayParameter.cpp:72-118, setting, without the
    synchronisation.  [rest]: items of the path left; [off]: offset of the element; [base]: offset of the blackboard. *)
Definition leaf_set (k : ekind) (f : fmt) (rest : list str) (s : str) (off base : nat) (bb : blackboard)
  : outcome (bool * blackboard) :=
  match k with
  | KdArray t len => array_access_set t len f rest s off base bb
  | _ =>
      match rest with
      | _ :: _ => Ok (false, bb)
      | [] => match k with
              | KdParam t => committed bb (param_set_str t f s (off - base) bb)
              | KdString max => committed bb (string_set max s (off - base) bb)
              | KdBit t => committed bb (bitparam_set_str t s (off - base) bb)
              | _ => Ok (false, bb)
              end
      end
  end.

(** The same, getting. *)
Definition leaf_get (k : ekind) (f : fmt) (rest : list str) (off base : nat) (bb : blackboard) : outcome str :=
  match k with
  | KdArray t len => array_access_get t len f rest off base bb
  | _ =>
      match rest with
      | _ :: _ => Err
      | [] => match k with
              | KdParam t => param_get_str t f (off - base) bb
              | KdString _ => string_get (off - base) bb
              | KdBit t => bitparam_get_str t f (off - base) bb
              | _ => Err
              end
      end
  end.

(** ParameterMgr.cpp:2089-2109 accessValue, setting: result and blackboard. *)
Definition access_set (root : elem) (f : fmt) (path s : str) (base : nat) (bb : blackboard)
  : outcome (bool * blackboard) :=
  match param_of root path with
  | None => Ok (false, bb)
  | Some (p, rest) =>
      match elem_at root p with
      | Some e => leaf_set (e_kind e) f rest s (offset root p) base bb
      | None => Ok (false, bb)
      end
  end.

(** ParameterMgr.cpp:2089-2109 accessValue, getting. *)
Definition access_get (root : elem) (f : fmt) (path : str) (base : nat) (bb : blackboard) : outcome str :=
  match param_of root path with
  | None => Err
  | Some (p, rest) =>
      match elem_at root p with
      | Some e => leaf_get (e_kind e) f rest (offset root p) base bb
      | None => Err
      end
  end.

(** ** Whole element access *)

(** ConfigurableElement.cpp:232-239 getSettingsAsBytes. *)
Definition get_bytes (root : elem) (p : pos) (base : nat) (bb : blackboard) : outcome (list byte) :=
  match elem_at root p with
  | Some e => bb_read_bytes bb (footprint e) (offset root p - base)
  | None => Err
  end.

(** ConfigurableElement.cpp:241-260 setSettingsAsBytes, without the synchronisation. *)
Definition set_bytes (root : elem) (p : pos) (bytes : list byte) (base : nat) (bb : blackboard) : outcome blackboard :=
  match elem_at root p with
  | Some e => if footprint e =? List.length bytes then bb_write_bytes bb bytes (offset root p - base) else Err
  | None => Err
  end.

(** setDefaultValues: ConfigurableElement.cpp:294-306, Parameter.cpp:84-96, ArrayParameter.cpp:178-200,
    StringParameter.cpp:61-67, BitParameterBlock.cpp:62-76.  The base offset is not subtracted for arrays and strings. *)
Fixpoint set_defaults (e : elem) (off base : nat) (bb : blackboard) : outcome blackboard :=
  match e with
  | Elem _ k cs =>
      match k with
      | KdParam t => param_set_default t (off - base) bb
      | KdArray t len => array_set_default t len off bb
      | KdString _ => string_set_default off bb
      | KdBitBlock b => bb_write_int bb 0 b (off - base)
      | KdBit _ => Ok bb
      | _ => (fix go (cs : list elem) (off : nat) (bb : blackboard) : outcome blackboard :=
                match cs with
                | [] => Ok bb
                | c :: r => do bb' <- set_defaults c off base bb; go r (off + footprint c) bb'
                end) cs off bb
      end
  end.
