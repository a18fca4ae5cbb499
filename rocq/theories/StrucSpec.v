(** Specification vocabulary for exported structures, independent of the functions of the model. *)
From Coq Require Import List Arith ZArith QArith Qabs Bool Ascii String Lia.
From Verif Require Import Base TextSpec RealModel RealSpec ParamTypeModel BitModel TreeModel XmlModel DeclSpec.
Import ListNotations.
Local Open Scope Z_scope.

(** The same element, but for components seen as blocks and for the representation of the bounds of floating point parameters. *)
Definition same_class (k k' : ekind) : Prop := same_kind k k' \/ (k = KdComponent /\ k' = KdBlock).
Inductive same_structure : elem -> elem -> Prop :=
| ss_elem : forall n k k' cs cs', same_class k k' -> Forall2 same_structure cs cs' -> same_structure (Elem n k cs) (Elem n k' cs').

(** A bound that six decimals are enough to tell: of magnitude at most 8 and the float nearest to a number with six decimals, or
    a whole number. *)
Definition short_bound (q : Q) : Prop :=
  (exists z : Z, 0 <= z <= 8 * 10 ^ 6 /\ (Qabs q == round32 (inject_Z z / inject_Z (10 ^ 6)))%Q)
  \/ (format_number 24 (-149) q /\ exists z : Z, (q == inject_Z z)%Q).

(** What an element below a subsystem is made of: no (sub)system; lengths of 64 bits; bounds of floating point parameters that six
    decimals can tell. *)
Definition kind_exportable (k : ekind) : Prop :=
  match k with
  | KdSystem | KdSubsystem => False
  | KdParam (PFloat lo hi) => short_bound lo /\ short_bound hi
  | KdArray t len => Z.of_nat len < 2 ^ 64 /\ match t with PFloat lo hi => short_bound lo /\ short_bound hi | _ => True end
  | KdString max => Z.of_nat max < 2 ^ 64
  | KdBitBlock b => 8 * Z.of_nat b < 2 ^ 64
  | _ => True
  end.
Inductive exportable : elem -> Prop :=
| ex_elem : forall n k cs, kind_exportable k -> (forall c, In c cs -> exportable c) -> exportable (Elem n k cs).

(** The structure file made of exported subsystems, all of the type [ty]. *)
Definition subsystem_file (ty : str) (s : str * list xnode) : xnode :=
  XElem (lit "Subsystem") [(lit "Name", fst s); (lit "Type", ty)]
    [XElem (lit "ComponentLibrary") [] []; XElem (lit "InstanceDefinition") [] (snd s)].
Definition structure_file (nm ty : str) (subs : list (str * list xnode)) : xnode :=
  XElem (lit "SystemClass") [(lit "Name", nm)] (map (subsystem_file ty) subs).
