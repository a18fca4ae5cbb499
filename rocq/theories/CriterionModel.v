(** Model of selection criteria (parameter/SelectionCriterionType.cpp, SelectionCriterion.cpp,
    SelectionCriteriaDefinition.cpp).  Criterion values are C++ [int]s: integers of 32 bits, bitwise operations are the
    two's complement ones. *)
From Coq Require Import List Arith ZArith Bool Ascii String Lia.
From Verif Require Import Base TextModel.
Import ListNotations.
Open Scope Z_scope.

(** ** Types *)

(** SelectionCriterionType.h: _bInclusive, _numToLitMap.  The std::map is the list of its entries in key order. *)
Record crit_type := CritType { cty_incl : bool; cty_map : list (str * Z) }.

(** std::string operator<: lexicographic on unsigned characters. *)
Fixpoint str_ltb (a b : str) : bool :=
  match a, b with
  | _, [] => false
  | [], _ :: _ => true
  | x :: a', y :: b' => (bval x <? bval y) || ((bval x =? bval y) && str_ltb a' b')
  end.

(** std::map::operator[] on an absent key. *)
Fixpoint map_add (k : str) (v : Z) (m : list (str * Z)) : list (str * Z) :=
  match m with
  | [] => [(k, v)]
  | (k', v') :: r => if str_ltb k k' then (k, v) :: m else (k', v') :: map_add k v r
  end.

(** std::map::find. *)
Fixpoint map_find (k : str) (m : list (str * Z)) : option Z :=
  match m with
  | [] => None
  | (k', v) :: r => if str_eqb k' k then Some v else map_find k r
  end.

(** SelectionCriterionType.cpp:39-46 constructor. *)
Definition cty_new (incl : bool) : crit_type := CritType incl (if incl then [(lit "none", 0)] else []).

(** SelectionCriterionType.cpp:54-91 addValuePair.  [iValue - 1] overflows for the smallest int (line 58). *)
Definition cty_add (t : crit_type) (v : Z) (l : str) : outcome crit_type :=
  if cty_incl t && (v =? - 2 ^ 31) then UB
  else if cty_incl t && ((v =? 0) || negb (Z.land v (v - 1) =? 0)) then Err
  else match map_find l (cty_map t) with
       | Some _ => Err
       | None => if existsb (fun p => snd p =? v) (cty_map t) then Err
                 else Ok (CritType (cty_incl t) (map_add l v (cty_map t)))
       end.

(** SelectionCriterionType.cpp:118-130 getAtomicNumericalValue. *)
Definition cty_atomic (t : crit_type) (l : str) : option Z := map_find l (cty_map t).

(** SelectionCriterionType.cpp:105-112: the loop of getNumericalValue. *)
Fixpoint cty_or_all (t : crit_type) (toks : list str) (acc : Z) : option Z :=
  match toks with
  | [] => Some acc
  | k :: r => match cty_atomic t k with
              | Some v => cty_or_all t r (Z.lor acc v)
              | None => None
              end
  end.

(** SelectionCriterionType.cpp:93-116 getNumericalValue. *)
Definition cty_numerical (t : crit_type) (s : str) : option Z :=
  if cty_incl t then cty_or_all t (split s (lit "|") true) 0 else cty_atomic t s.

(** SelectionCriterionType.cpp:132-146 getLiteralValue: first entry, in key order, with this number. *)
Fixpoint map_literal (v : Z) (m : list (str * Z)) : option str :=
  match m with
  | [] => None
  | (k, v') :: r => if v' =? v then Some k else map_literal v r
  end.
Definition cty_literal (t : crit_type) (v : Z) : option str := map_literal v (cty_map t).

(** SelectionCriterionType.cpp:154-176 listPossibleValues. *)
Definition cty_list (t : crit_type) : str := lit "{" ++ join (lit ", ") (map fst (cty_map t)) ++ lit "}".

(** SelectionCriterionType.cpp:188-214: literals of the bits set, from bit [k] upwards.  [1 << 31] on an int is taken as the
    smallest int. *)
Fixpoint cty_bits (t : crit_type) (v : Z) (k : Z) (n : nat) : list str :=
  match n with
  | O => []
  | S n' =>
      let single := Z.land v (to_ctype t_int32 (Z.shiftl 1 k)) in
      (if single =? 0 then []
       else match cty_literal t single with Some l => [l] | None => [] end) ++ cty_bits t v (k + 1) n'
  end.

(** SelectionCriterionType.cpp:179-228 getFormattedState. *)
Definition cty_formatted (t : crit_type) (v : Z) : str :=
  let s := if cty_incl t then join (lit "|") (cty_bits t v 0 32)
           else match cty_literal t v with Some l => l | None => [] end in
  match s with [] => lit "<none>" | _ => s end.

(** ** Criteria *)

(** SelectionCriterion.h: name, _pType, _iState, _uiNbModifications (uint32_t). *)
Record criterion := Criterion { cr_name : str; cr_type : crit_type; cr_state : Z; cr_mods : Z }.

(** SelectionCriterion.cpp:39-44. *)
Definition cr_new (n : str) (t : crit_type) : criterion := Criterion n t 0 0.

(** SelectionCriterion.cpp:63-86 setCriterionState; the counter is a uint32_t. *)
Definition cr_set (c : criterion) (v : Z) : criterion :=
  if cr_state c =? v then c
  else Criterion (cr_name c) (cr_type c) v (to_ctype t_uint32 (cr_mods c + 1)).

(** SelectionCriterion.cpp:51-59 hasBeenModified, resetModifiedStatus. *)
Definition cr_modified (c : criterion) : bool := negb (cr_mods c =? 0).
Definition cr_reset (c : criterion) : criterion := Criterion (cr_name c) (cr_type c) (cr_state c) 0.

(** SelectionCriterion.cpp:106-126 is, isNot, includes, excludes. *)
Definition cr_is (c : criterion) (v : Z) : bool := cr_state c =? v.
Definition cr_isnot (c : criterion) (v : Z) : bool := negb (cr_state c =? v).
Definition cr_includes (c : criterion) (v : Z) : bool := Z.land (cr_state c) v =? v.
Definition cr_excludes (c : criterion) (v : Z) : bool := Z.land (cr_state c) v =? 0.

(** Element.cpp:267-276 getPathName for a criterion. *)
Definition cr_path_name (c : criterion) : str :=
  match cr_name c with [] => lit "SelectionCriterion" | n => n end.

(** ** The criteria definition: the list of criteria, in creation order.  A criterion is designated by its position. *)

(** SelectionCriteriaDefinition.cpp:39-47 createSelectionCriterion. *)
Definition crits_create (cs : list criterion) (n : str) (t : crit_type) : list criterion := cs ++ [cr_new n t].

(** SelectionCriteriaDefinition.cpp:50-59 getSelectionCriterion, Element.cpp:464-488 findChild. *)
Fixpoint crits_find (cs : list criterion) (n : str) : option nat :=
  match cs with
  | [] => None
  | c :: r => if str_eqb (cr_path_name c) n then Some 0%nat
              else match crits_find r n with Some i => Some (S i) | None => None end
  end.

(** SelectionCriteriaDefinition.cpp:81-94 resetModifiedStatus. *)
Definition crits_reset (cs : list criterion) : list criterion := map cr_reset cs.

(** Change of the state of the criterion at position [i]. *)
Fixpoint crits_set (cs : list criterion) (i : nat) (v : Z) : list criterion :=
  match cs, i with
  | [], _ => []
  | c :: r, O => cr_set c v :: r
  | c :: r, S j => c :: crits_set r j v
  end.
