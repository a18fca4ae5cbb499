(** Model of the reading of structure files: declarations of the parameter types, of the component types and of the subsystems
    (fromXml of parameter/IntegerParameterType.h, EnumParameterType.cpp, FixedPointParameterType.cpp,
    FloatingPointParameterType.cpp, BitParameterBlockType.cpp, BitParameterType.cpp, StringParameterType.cpp,
    ParameterAdaptation.cpp, LinearParameterAdaptation.cpp, LogarithmicParameterAdaptation.cpp, TypeElement.cpp, Element.cpp,
    ComponentLibrary.cpp, ComponentType.cpp, ComponentInstance.cpp, Subsystem.cpp). *)
From Coq Require Import List Arith ZArith QArith Bool Ascii String Lia.
From Verif Require Import Base TextModel RealModel ParamTypeModel BitModel TreeModel MapModel TypeModel XmlModel SyncModel DomXmlModel.
Import ListNotations.
Local Open Scope Z_scope.

(** ** Attributes *)

(** XmlElement.cpp:98-113 getAttribute: kept when absent; a text that cannot be converted raises an exception, caught by the
    fromXml of an element above (Element.cpp:187-190), which refuses the document. *)
Definition attr_num (t : TextModel.ctype) (nm : str) (dflt : Z) (x : xnode) : outcome Z :=
  match x_attr nm x with
  | None => Ok dflt
  | Some s => match convertTo t s with Some v => Ok v | None => Err end
  end.

Definition attr_bool (nm : str) (dflt : bool) (x : xnode) : outcome bool :=
  match x_attr nm x with
  | None => Ok dflt
  | Some s => match convert_bool s with Some v => Ok v | None => Err end
  end.

(** The value of a float or double attribute.  Simplification: the sign of zero is forgotten. *)
Definition attr_real (convert : str -> option (bool * Q)) (nm : str) (dflt : Q) (x : xnode) : outcome Q :=
  match x_attr nm x with
  | None => Ok dflt
  | Some s => match convert s with Some v => Ok (signed_q v) | None => Err end
  end.

(** ParameterMgr.cpp:2762-2795: the elements that a structure file can create. *)
Definition structure_library : list str :=
  map lit ["Subsystem"; "ComponentType"; "Component"; "BitParameter"; "BitParameterBlock"; "StringParameter"; "ParameterBlock";
           "BooleanParameter"; "IntegerParameter"; "LinearAdaptation"; "LogarithmicAdaptation"; "EnumParameter"; "ValuePair";
           "FixedPointParameter"; "FloatingPointParameter"; "SubsystemInclude"]%string.

(** Element.cpp:303-321 createChild: a type unknown to the library is refused.  An element of the library that the schemas do
    not allow there is created; what follows is undefined in most cases (the element is cast to the expected class), and is not
    modelled in the others: [UB] here. *)
Definition not_here {A} (type : str) : outcome A := if existsb (str_eqb type) structure_library then UB else Err.

(** Element.cpp:157-167: an element whose children are not created from the document has none to receive the content. *)
Definition no_child (x : xnode) : outcome unit := match x_elems x with [] => Ok tt | _ :: _ => Err end.

Fixpoint each {A B} (f : A -> outcome B) (l : list A) : outcome (list B) :=
  match l with
  | [] => Ok []
  | x :: r => do y <- f x; do ys <- each f r; Ok (y :: ys)
  end.

(** ** Adaptations *)

(** _iOffset, _dSlopeNumerator, _dSlopeDenominator, _dLogarithmBase, _dFloorValue ([None]: minus infinity). *)
Inductive adaptation :=
| ALinear (off : Z) (num den : Q)
| ALog (off : Z) (num den base : Q) (floor : option Q).

(** LogarithmicParameterAdaptation.h:74 std::exp(1.) in double. *)
Definition exp_1 : Q := 6121026514868073 # 2251799813685248.

(** ParameterAdaptation.cpp:66-73, LinearParameterAdaptation.cpp:63-82 fromXml: offset, numerator, denominator. *)
Definition decl_linear (x : xnode) : outcome (Z * Q * Q) :=
  do num <- attr_real convert_double (lit "SlopeNumerator") 1 x;
  do den <- attr_real convert_double (lit "SlopeDenominator") 1 x;
  if Qeq_bool den 0 then Err
  else do off <- attr_num t_int32 (lit "Offset") 0 x; do _ <- no_child x; Ok (off, num, den).

(** LogarithmicParameterAdaptation.cpp:61-78 fromXml. *)
Definition decl_adaptation (x : xnode) : outcome adaptation :=
  if str_eqb (x_type x) (lit "LinearAdaptation") then do r <- decl_linear x; let '(off, num, den) := r in Ok (ALinear off num den)
  else if str_eqb (x_type x) (lit "LogarithmicAdaptation") then
    do base <- attr_real convert_double (lit "LogarithmBase") exp_1 x;
    if Qle_bool base 0 || Qeq_bool base 1 then Err
    else do floor <- match x_attr (lit "FloorValue") x with
                     | None => Ok None
                     | Some s => match convert_double s with Some v => Ok (Some (signed_q v)) | None => Err end
                     end;
         do r <- decl_linear x; let '(off, num, den) := r in Ok (ALog off num den base floor)
  else not_here (x_type x).

(** ** Parameters *)

(** IntegerParameterBuilder.h:43-72, IntegerParameterType.h:91-107 fromXml, and its adaptations
    (BaseIntegerParameterType.cpp:72-75 uses the first one). *)
Definition decl_int (x : xnode) : outcome (ptype * list adaptation) :=
  do bits <- attr_num t_uint64 (lit "Size") 32 x;
  do sg <- attr_bool (lit "Signed") false x;
  if (bits =? 8) || (bits =? 16) || (bits =? 32) then
    let t := TextModel.CType sg (Z.to_nat (bits / 8)) in
    do lo <- attr_num t (lit "Min") (ct_lo t) x;
    do hi <- attr_num t (lit "Max") (ct_hi t) x;
    if hi <? lo then Err
    else do ads <- each decl_adaptation (x_elems x); Ok (PInt sg (Z.to_nat (bits / 8)) lo hi, ads)
  else Err.

(** EnumValuePair.cpp:54-67 fromXml. *)
Definition decl_pair (x : xnode) : outcome (str * Z) :=
  if str_eqb (x_type x) (lit "ValuePair") then
    do v <- attr_num t_int32 (lit "Numerical") 0 x; do _ <- no_child x; Ok (x_attr0 (lit "Literal") x, v)
  else not_here (x_type x).

(** EnumParameterType.cpp:78-92 fromXml. *)
Definition decl_enum (x : xnode) : outcome ptype :=
  match x_attr (lit "Size") x with
  | None => Err
  | Some s => match convertTo t_uint64 s with
              | None => Err
              | Some bits => do ps <- each decl_pair (x_elems x); Ok (PEnum (Z.to_nat (bits / 8)) ps)
              end
  end.

(** FixedPointParameterType.cpp:90-117 fromXml, 271-274 getUtilSizeInBits (an addition of uint32_t). *)
Definition decl_fix (x : xnode) : outcome ptype :=
  do bits <- attr_num t_uint64 (lit "Size") 0 x;
  do n <- attr_num t_uint32 (lit "Integral") 0 x;
  do m <- attr_num t_uint32 (lit "Fractional") 0 x;
  if bits <? to_ctype t_uint32 (n + m + 1) then Err
  else do _ <- no_child x; Ok (PFix (Z.to_nat (bits / 8)) (Z.to_nat n) (Z.to_nat m)).

(** FloatingPointParameterType.cpp:84-114 fromXml. *)
Definition decl_float (x : xnode) : outcome ptype :=
  do bits <- attr_num t_uint64 (lit "Size") 32 x;
  if bits =? 32 then
    do lo <- attr_real convert_float (lit "Min") (- max32) x;
    do hi <- attr_real convert_float (lit "Max") max32 x;
    if Qle_bool lo hi then do _ <- no_child x; Ok (PFloat lo hi) else Err
  else Err.

(** TypeElement.cpp:107-111: the ArrayLength attribute, read for every type element; ParameterType.cpp:129-138 doInstantiate. *)
Definition decl_length (x : xnode) : outcome nat := omap Z.to_nat (attr_num t_uint64 (lit "ArrayLength") 0 x).
Definition scalar_or_array (t : ptype) (len : nat) : ekind := match len with O => KdParam t | _ => KdArray t len end.

(** BitParameterType.cpp:74-119 fromXml, in a block of [block] bytes.  The sum is one of size_t; getMaxEncodableValue shifts by
    64 - size bits.  Simplification: the Mapping attribute of a bit parameter, which the schema does not have, is ignored. *)
Definition decl_bit (block : nat) (x : xnode) : outcome (str * bittype) :=
  if str_eqb (x_type x) (lit "BitParameter") then
    do bp <- attr_num t_uint64 (lit "Pos") 0 x;
    do sz <- attr_num t_uint64 (lit "Size") 0 x;
    if 8 * Z.of_nat block <? to_ctype t_uint64 (bp + sz) then Err
    else if (sz <? 1) || (64 <? sz) then UB
    else
      let enc := bit_max_encodable (BitType bp sz 0 block) in
      do mx <- attr_num t_uint64 (lit "Max") enc x;
      if enc <? mx then Err
      else do _ <- decl_length x; do _ <- no_child x; Ok (x_name x, BitType bp sz mx block)
  else not_here (x_type x).

(** ** Type elements *)

(** The Mapping attribute; absent and empty are the same (TypeElement.cpp:112-123). *)
Definition decl_mapping (x : xnode) : str := x_attr0 (lit "Mapping") x.

Definition leaf (x : xnode) (k : outcome ekind) : outcome tel := do k <- k; Ok (TLeaf (x_name x) k (decl_mapping x)).

(** Element.cpp:144-190 fromXml with NamedElementBuilderTemplate.h, BitParameterBlockType.cpp:59-68, StringParameterType.cpp:60-68,
    ComponentInstance.cpp:79-110.  Simplification: the content of a component, which the schemas exclude, is [UB]. *)
Fixpoint decl_tel (x : xnode) : outcome tel :=
  match x with
  | XText _ => Err
  | XElem ty _ content =>
      do len <- decl_length x;
      if str_eqb ty (lit "BooleanParameter") then leaf x (do _ <- no_child x; Ok (scalar_or_array PBool len))
      else if str_eqb ty (lit "IntegerParameter") then leaf x (do t <- decl_int x; Ok (scalar_or_array (fst t) len))
      else if str_eqb ty (lit "EnumParameter") then leaf x (do t <- decl_enum x; Ok (scalar_or_array t len))
      else if str_eqb ty (lit "FixedPointParameter") then leaf x (do t <- decl_fix x; Ok (scalar_or_array t len))
      else if str_eqb ty (lit "FloatingPointParameter") then leaf x (do t <- decl_float x; Ok (scalar_or_array t len))
      else if str_eqb ty (lit "StringParameter") then
        leaf x (do n <- attr_num t_uint64 (lit "MaxLength") 0 x; do _ <- no_child x; Ok (KdString (Z.to_nat n)))
      else if str_eqb ty (lit "BitParameterBlock") then
        do bits <- attr_num t_uint64 (lit "Size") 0 x;
        let b := Z.to_nat (bits / 8) in
        do bs <- each (decl_bit b) (x_elems x); Ok (TBits (x_name x) b (decl_mapping x) bs)
      else if str_eqb ty (lit "ParameterBlock") then
        do cs <- (fix go (l : list xnode) : outcome (list tel) :=
                    match l with
                    | [] => Ok []
                    | XText _ :: r => go r
                    | c :: r => do t <- decl_tel c; do ts <- go r; Ok (t :: ts)
                    end) content;
        Ok (TBlock (x_name x) (decl_mapping x) len cs)
      else if str_eqb ty (lit "Component") then
        match x_elems x with
        | [] => Ok (TComp (x_name x) (decl_mapping x) len (x_attr0 (lit "Type") x))
        | _ :: _ => UB
        end
      else not_here ty
  end.

(** ComponentType.cpp:71-112 fromXml. *)
Definition decl_type (x : xnode) : outcome ctype :=
  if str_eqb (x_type x) (lit "ComponentType") then
    do _ <- decl_length x;
    do cs <- each decl_tel (x_elems x);
    Ok (CType (x_name x) (decl_mapping x) (x_attr (lit "Extends") x) cs)
  else not_here (x_type x).

(** ComponentLibrary.cpp:49-79 fromXml: the types of the nested libraries and type sets are put in the same library. *)
Fixpoint decl_library (x : xnode) : outcome (list ctype) :=
  match x with
  | XText _ => Ok []
  | XElem _ _ content =>
      (fix go (l : list xnode) : outcome (list ctype) :=
         match l with
         | [] => Ok []
         | XText _ :: r => go r
         | c :: r =>
             do a <- (if str_eqb (x_type c) (lit "ComponentLibrary") || str_eqb (x_type c) (lit "ComponentTypeSet")
                      then decl_library c else omap (fun t => [t]) (decl_type c));
             do b <- go r; Ok (a ++ b)
         end) content
  end.

(** ** The system *)

(** What the code of a subsystem type brings: its context keys, its object creators, and whether it is a virtual one. *)
Record plugin := Plugin { pl_keys : list str; pl_creators : list creator; pl_virtual : bool }.

(** SubsystemLibrary.h:52-59, DefaultElementLibrary.h:78-97: [lib] gives the code for a Type attribute, [None] when there is none
    and no fallback.  Subsystem.cpp:94-155 structureFromXml, without the mapping.  "InstanceDefintion" is misspelt there: the last
    child is used.  [fuel]: see create_instances; [UB] when the creation never ends. *)
Definition load_subsystem (lib : str -> option plugin) (fuel : nat) (x : xnode) : outcome (str * (subsystem * list inst)) :=
  if str_eqb (x_type x) (lit "Subsystem") then
    match lib (x_attr0 (lit "Type") x) with
    | None => Err
    | Some pl =>
        match load_mapping (decl_mapping x) with
        | None => Err
        | Some m =>
            do cl <- child_or_last (lit "ComponentLibrary") x;
            do ts <- decl_library cl;
            do idf <- child_or_last (lit "InstanceDefintion") x;
            do defs <- each decl_tel (x_elems idf);
            match load_structure ts defs with
            | None => Err
            | Some (ll, ds) =>
                match create_instances fuel ll ds with
                | None => UB
                | Some xs => Ok (x_name x, (Subsys m (pl_keys pl) (pl_creators pl) (pl_virtual pl), xs))
                end
            end
        end
    end
  else not_here (x_type x).

(** ParameterMgr.cpp:488-538 loadStructure, XmlDocSource.cpp:115-160 (the name of the system class is not empty), Subsystem.cpp:157-180.
    Simplification: the elements of all the subsystems are created before the objects of the first one. *)
Definition load_system (lib : str -> option plugin) (hw : list event -> nat -> bool) (fuel : nat) (nm : str) (x : xnode) : outcome system :=
  if str_eqb (x_type x) (lit "SystemClass") && str_eqb (x_name x) nm then
    do subs <- each (load_subsystem lib fuel) (x_elems x);
    do objs <- map_subsystems (map snd subs);
    Ok (Sys (Elem nm KdSystem (sub_elems (map fst subs) (map snd subs))) (fun p => rank p (holders (map snd subs) objs 0) 0) hw)
  else Err.
