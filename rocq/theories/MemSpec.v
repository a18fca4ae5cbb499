(** Bit level view of the memory, to state what holds the value of an element. *)
From Coq Require Import List Arith ZArith Bool Ascii.
From Verif Require Import Base ParamTypeModel BlackboardModel BitModel ArrayModel TreeModel.
Import ListNotations.
Local Open Scope nat_scope.

(** Bit [i] of a memory, bytes first to last, in each from the least significant bit. *)
Definition mbit (bb : blackboard) (i : nat) : bool :=
  match nth_error bb (i / 8) with
  | Some b => Z.testbit (bval b) (Z.of_nat (i mod 8))
  | None => false
  end.

(** The bits that make the value of an element, counted from the start of its storage: the field of a bit parameter, all the
    bytes of another element. *)
Definition field_bit (e : elem) (j : nat) : bool :=
  match e_kind e with
  | KdBit t => (Z.to_nat (bt_pos t) <=? j) && (j <? Z.to_nat (bt_pos t + bt_size t))
  | _ => j <? 8 * footprint e
  end.

(** Bit [i] of the main memory is part of the value of the element at [p]. *)
Definition owns (root : elem) (p : pos) (i : nat) : Prop :=
  exists e, elem_at root p = Some e /\ 8 * offset root p <= i /\ field_bit e (i - 8 * offset root p) = true.

(** The element at [q] has the same value in two memories; each holds a part of the structure that starts at the given base
    offset. *)
Definition same_setting (root : elem) (q : pos) (base1 : nat) (b1 : blackboard) (base2 : nat) (b2 : blackboard) : Prop :=
  forall i, owns root q i -> mbit b1 (i - 8 * base1) = mbit b2 (i - 8 * base2).
