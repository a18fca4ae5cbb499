(** Vocabulary of the statements about the structure. *)
From Coq Require Import List Arith ZArith Bool Ascii String Lia.
From Verif Require Import Base TextModel RealModel ParamTypeModel BlackboardModel BitModel ArrayModel ArraySpec TreeModel.
Import ListNotations.
Local Open Scope nat_scope.

(** [p] designates an ancestor of [q], or [q] itself. *)
Definition above (p q : pos) : Prop := exists r, q = p ++ r.

(** Neither is above the other. *)
Definition unrelated (p q : pos) : Prop := ~ above p q /\ ~ above q p.

(** Two bytes ranges, given by offset and size, that share no byte. *)
Definition apart (o1 n1 o2 n2 : nat) : Prop := o1 + n1 <= o2 \/ o2 + n2 <= o1.

(** The bytes that hold the value of an element: a bit parameter lives in the word of its block. *)
Definition storage_size (e : elem) : nat :=
  match e_kind e with KdBit t => bt_block t | _ => footprint e end.

(** [p] and [q] are two bit parameters of one block. *)
Definition same_block (root : elem) (p q : pos) : Prop :=
  exists r i j e f t u, p = r ++ [i] /\ q = r ++ [j] /\ elem_at root p = Some e /\ elem_at root q = Some f
    /\ e_kind e = KdBit t /\ e_kind f = KdBit u.

(** A parameter of the structure. *)
Definition param_at (root : elem) (p : pos) (e : elem) : Prop :=
  elem_at root p = Some e /\ is_param (e_kind e) = true.

(** The bit fields of a block do not overlap.  The code does not check it. *)
Definition fields_apart (root : elem) : Prop :=
  forall r i j e f t u, i <> j -> elem_at root (r ++ [i]) = Some e -> elem_at root (r ++ [j]) = Some f ->
    e_kind e = KdBit t -> e_kind f = KdBit u ->
    (bt_pos t + bt_size t <= bt_pos u \/ bt_pos u + bt_size u <= bt_pos t)%Z.

(** Every string parameter holds a terminated string. *)
Definition strings_terminated (root : elem) (bb : blackboard) : Prop :=
  forall p e max, elem_at root p = Some e -> e_kind e = KdString max -> terminated max (offset root p) bb.

(** Names usable in paths: no slash, siblings told apart, and a name for the root. *)
Definition names_ok (root : elem) : Prop :=
  e_name root <> []
  /\ (forall p e, elem_at root p = Some e -> ~ In "/"%char (path_name e))
  /\ (forall p e i j c d, elem_at root p = Some e -> nth_error (e_children e) i = Some c ->
        nth_error (e_children e) j = Some d -> path_name c = path_name d -> i = j).
