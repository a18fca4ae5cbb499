(** Model of the loading of component types and of their instantiation (parameter/ComponentLibrary.cpp, ComponentType.cpp,
    ComponentInstance.cpp, ParameterBlockType.cpp, TypeElement.cpp, InstanceDefinition.cpp, Subsystem.cpp). *)
From Coq Require Import List Arith ZArith Bool Ascii String Lia.
From Verif Require Import Base TextModel ParamTypeModel BitModel TreeModel MapModel.
Import ListNotations.
Local Open Scope nat_scope.

(** ** The XML description *)

(** The type elements of a structure file: parameters (with their Mapping attribute, empty when absent), bit parameter blocks,
    parameter blocks (ArrayLength, 0 when absent) and components (ArrayLength, Type).
    Simplification: the attributes of the parameters are already parsed ([ekind]). *)
Inductive tel :=
| TLeaf (name : str) (k : ekind) (mapping : str)
| TBits (name : str) (bytes : nat) (mapping : str) (bits : list (str * bittype))
| TBlock (name : str) (mapping : str) (len : nat) (children : list tel)
| TComp (name : str) (mapping : str) (len : nat) (type : str).

(** A ComponentType: Name, Mapping, Extends, children. *)
Record ctype := CType { ct_name : str; ct_mapping : str; ct_extends : option str; ct_children : list tel }.

(** ** The loaded types *)

(** The type elements once loaded: mapping data (empty list for the null pointer), component type (its rank in the library). *)
Inductive ltel :=
| LLeaf (name : str) (k : ekind) (m : list (list (str * str)))
| LBits (name : str) (bytes : nat) (m : list (list (str * str))) (bits : list (str * bittype))
| LBlock (name : str) (m : list (list (str * str))) (len : nat) (children : list ltel)
| LComp (name : str) (m : list (list (str * str))) (len : nat) (type : nat).

Record ltype := LType { lt_name : str; lt_maps : list (list (str * str)); lt_extends : option nat; lt_children : list ltel }.

(** TypeElement.cpp:107-125 fromXml: the Mapping attribute. *)
Definition load_mapping (raw : str) : option (list (list (str * str))) :=
  match raw with
  | [] => Some []
  | _ :: _ => match md_init raw with Some d => Some [d] | None => None end
  end.

(** ComponentLibrary.cpp:44-47 getComponentType, Element.cpp findChild: the first type of that name among the ones created so
    far. *)
Fixpoint type_rank (names : list str) (n : str) (i : nat) : option nat :=
  match names with
  | [] => None
  | x :: r => if str_eqb x n then Some i else type_rank r n (S i)
  end.

Fixpoint load_all {A B} (f : A -> option B) (l : list A) : option (list B) :=
  match l with
  | [] => Some []
  | x :: r => match f x with Some y => match load_all f r with Some ys => Some (y :: ys) | None => None end | None => None end
  end.

(** Element.cpp:144-190 fromXml, ComponentInstance.cpp:79-110 fromXml.  [parent]: the component type directly containing the
    element, if any. *)
Fixpoint load_tel (names : list str) (parent : option nat) (t : tel) : option ltel :=
  match t with
  | TLeaf n k raw => match load_mapping raw with Some m => Some (LLeaf n k m) | None => None end
  | TBits n b raw bits => match load_mapping raw with Some m => Some (LBits n b m bits) | None => None end
  | TBlock n raw len cs =>
      match load_mapping raw with
      | None => None
      | Some m =>
          match (fix go (cs : list tel) : option (list ltel) :=
                   match cs with
                   | [] => Some []
                   | x :: r => match load_tel names None x with
                               | Some y => match go r with Some ys => Some (y :: ys) | None => None end
                               | None => None
                               end
                   end) cs with
          | Some cs' => Some (LBlock n m len cs')
          | None => None
          end
      end
  | TComp n raw len ty =>
      match type_rank names ty 0 with
      | None => None
      | Some i =>
          if match parent with Some j => i =? j | None => false end then None
          else match load_mapping raw with Some m => Some (LComp n m len i) | None => None end
      end
  end.

(** ComponentType.cpp:71-112 fromXml: [names] are the types already created, the type itself being the last one. *)
Definition load_type (names : list str) (t : ctype) : option ltype :=
  let self := List.length names - 1 in
  match load_mapping (ct_mapping t), load_all (load_tel names (Some self)) (ct_children t) with
  | Some m, Some cs =>
      match ct_extends t with
      | None => Some (LType (ct_name t) m None cs)
      | Some x => match type_rank names x 0 with
                  | None => None
                  | Some i => if i =? self then None else Some (LType (ct_name t) m (Some i) cs)
                  end
      end
  | _, _ => None
  end.

(** ComponentLibrary.cpp:49-75 fromXml: one type after the other; each is created (Element.cpp:300-322) before its content is
    read.  Simplification: the nested libraries are flattened. *)
Fixpoint load_library (names : list str) (ts : list ctype) : option (list ltype) :=
  match ts with
  | [] => Some []
  | t :: r => match load_type (names ++ [ct_name t]) t with
              | Some lt => match load_library (names ++ [ct_name t]) r with Some l => Some (lt :: l) | None => None end
              | None => None
              end
  end.

(** Subsystem.cpp:128-140: the library, then the instance definition. *)
Definition load_structure (ts : list ctype) (defs : list tel) : option (list ltype * list ltel) :=
  match load_library [] ts with
  | Some lib => match load_all (load_tel (map ct_name ts) None) defs with Some ds => Some (lib, ds) | None => None end
  | None => None
  end.

(** ** Instantiation *)

(** ComponentType.cpp:52-68: mapping data of a component type, then of the types it extends (each one before it in the
    library). *)
Fixpoint type_maps (lib : list ltype) (fuel i : nat) : list (list (str * str)) :=
  match fuel with
  | 0 => []
  | S f => match nth_error lib i with
           | Some t => lt_maps t ++ match lt_extends t with Some j => type_maps lib f j | None => [] end
           | None => []
           end
  end.

(** std::to_string of the rank of an array entry. *)
Definition entry_name (i : nat) : str := print_dec (Z.of_nat i).

(** TypeElement.cpp:127-135 instantiate, ParameterBlockType.cpp:55-75 populate, ComponentInstance.cpp:112-143 doInstantiate and
    populate.  [pop i]: the elements that the component type number [i] puts in an element ([None]: never ends).
    All the entries of an array refer to the type element of the array.
    Simplification: the outer element of an array of components has the class of a parameter block and the kind of a component;
    it is a [KdComponent] here. *)
Fixpoint inst_one (pop : nat -> option (list inst)) (lib : list ltype) (t : ltel) : option inst :=
  match t with
  | LLeaf n k m => Some (Inst n k m [])
  | LBits n b m bits => Some (Inst n (KdBitBlock b) m (map (fun nb => Inst (fst nb) (KdBit (snd nb)) [] []) bits))
  | LBlock n m len cs =>
      match (fix go (cs : list ltel) : option (list inst) :=
               match cs with
               | [] => Some []
               | x :: r => match inst_one pop lib x with
                           | Some y => match go r with Some ys => Some (y :: ys) | None => None end
                           | None => None
                           end
               end) cs with
      | None => None
      | Some cs' =>
          Some (Inst n KdBlock m (if len =? 0 then cs' else map (fun i => Inst (entry_name i) KdBlock m cs') (seq 0 len)))
      end
  | LComp n m len i =>
      let ms := m ++ type_maps lib (S i) i in
      match pop i with
      | None => None
      | Some cs' =>
          Some (Inst n KdComponent ms (if len =? 0 then cs' else map (fun j => Inst (entry_name j) KdComponent ms cs') (seq 0 len)))
      end
  end.

(** ComponentType.cpp:114-125 populate, TypeElement.cpp:88-105 populate.  The recursion of the C++ code is bounded by [fuel] here:
    [None] when the bound is reached. *)
Fixpoint populate (fuel : nat) (lib : list ltype) (i : nat) : option (list inst) :=
  match fuel with
  | 0 => None
  | S f => match nth_error lib i with
           | None => Some []
           | Some t =>
               match load_all (inst_one (populate f lib) lib) (lt_children t) with
               | None => None
               | Some a => match lt_extends t with
                           | None => Some a
                           | Some j => match populate f lib j with Some b => Some (a ++ b) | None => None end
                           end
               end
           end
  end.

(** InstanceDefinition.cpp:52-55 createInstances: the children of the subsystem. *)
Definition create_instances (fuel : nat) (lib : list ltype) (defs : list ltel) : option (list inst) :=
  load_all (inst_one (populate fuel lib) lib) defs.
