(** Model of the export of the structure (parameter/Element.cpp toXml, ConfigurableElement.h structureToXml, BaseParameter.cpp,
    BitParameterBlock.h, and the toXml of the type elements): the documents given by getElementStructureXML, getSystemClassXML
    (ParameterMgr.cpp:1406-1427, 1941-1956) and ElementHandle::getStructureAsXML (ElementHandle.cpp:145-152). *)
From Coq Require Import List Arith ZArith QArith Qabs Bool Ascii String Lia.
From Verif Require Import Base TextModel RealModel ParamTypeModel BitModel TreeModel XmlModel DeclModel.
Import ListNotations.
Local Open Scope Z_scope.

(** std::to_string of a float: "%f". *)
Definition print_f6 (q : Q) : str :=
  let z := round_even (Qabs q * inject_Z (10 ^ 6)) in
  (if Qle_bool 0 q then [] else ["-"%char]) ++ print_base 10 (z / 10 ^ 6) ++ "."%char :: pad0 6 (print_base 10 (z mod 10 ^ 6)).

Definition xml_bool (b : bool) : str := if b then lit "true" else lit "false".

(** toXml: IntegerParameterType.h:110-120, EnumParameterType.cpp:284-291, FixedPointParameterType.cpp:362-375,
    FloatingPointParameterType.cpp:276-284, with the attributes set by XmlElement.cpp:193-219. *)
Definition type_attrs (t : ptype) : list (str * str) :=
  match t with
  | PBool => []
  | PInt sg b lo hi =>
      [(lit "Signed", xml_bool sg); (lit "Min", print_dec lo); (lit "Max", print_dec hi); (lit "Size", print_dec (8 * Z.of_nat b))]
  | PEnum b _ => [(lit "Size", print_dec (8 * Z.of_nat b))]
  | PFix b n m =>
      [(lit "Size", print_dec (8 * Z.of_nat b)); (lit "Integral", print_dec (Z.of_nat n)); (lit "Fractional", print_dec (Z.of_nat m))]
  | PFloat lo hi => [(lit "Size", print_dec 32); (lit "Min", print_f6 lo); (lit "Max", print_f6 hi)]
  end.

(** EnumValuePair.cpp:77-89. *)
Definition pair_xml (p : str * Z) : xnode :=
  XElem (lit "ValuePair") [(lit "Literal", fst p); (lit "Numerical", print_dec (snd p))] [].

(** The children of the type.  An adaptation has no toXml of its own: its element is its kind (ParameterAdaptation.cpp:39-42) and
    its only attribute the name given by its constructor. *)
Definition adaptation_xml (a : adaptation) : xnode :=
  XElem (lit "Adaptation") [(lit "Name", match a with ALinear _ _ _ => lit "Linear" | ALog _ _ _ _ _ => lit "Logarithmic" end)] [].
Definition type_content (t : ptype) (ads : list adaptation) : list xnode :=
  match t with PEnum _ ps => map pair_xml ps | PInt _ _ _ _ => map adaptation_xml ads | _ => [] end.

(** Element.cpp:226-236 setXmlNameAttribute. *)
Definition name_attr (n : str) : list (str * str) := match n with [] => [] | _ => [(lit "Name", n)] end.

(** TypeElement.cpp:180-188. *)
Definition length_attr (len : nat) : list (str * str) :=
  match len with O => [] | _ => [(lit "ArrayLength", print_dec (Z.of_nat len))] end.

(** StringParameterType.cpp:82-89, BitParameterBlock.h:51-56, BitParameterType.cpp:229-242.  Simplification: the ArrayLength of a
    string or a bit parameter, which has no effect, is not part of the tree and not exported; nor are Unit and Description. *)
Definition kind_attrs (k : ekind) : list (str * str) :=
  match k with
  | KdParam t => type_attrs t
  | KdArray t len => type_attrs t ++ length_attr len
  | KdString max => [(lit "MaxLength", print_dec (Z.of_nat max))]
  | KdBitBlock b => [(lit "Size", print_dec (8 * Z.of_nat b))]
  | KdBit t => [(lit "Pos", print_dec (bt_pos t)); (lit "Size", print_dec (bt_size t)); (lit "Max", print_dec (bt_max t))]
  | _ => []
  end.

(** ConfigurableElement.cpp:65-77, Element.cpp:192-213.  Simplification: the tree has no adaptations; see [param_xml]. *)
Fixpoint structure_xml (e : elem) : xnode :=
  match e with
  | Elem n k cs =>
      XElem (xml_name k) (kind_attrs k ++ name_attr n)
        (match k with
         | KdParam t | KdArray t _ => type_content t []
         | KdString _ | KdBit _ => []
         | _ => map structure_xml cs
         end)
  end.

(** The same for a parameter with its adaptations. *)
Definition param_xml (n : str) (t : ptype) (ads : list adaptation) : xnode :=
  XElem (xml_name (KdParam t)) (type_attrs t ++ name_attr n) (type_content t ads).
