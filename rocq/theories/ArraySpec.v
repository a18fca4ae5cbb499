(** Specification vocabulary for array and string parameters. *)
From Coq Require Import List Arith ZArith Ascii String.
From Verif Require Import Base TextModel ParamTypeModel ParamTypeSpec BlackboardModel.
Import ListNotations.
Local Open Scope nat_scope.

(** The [n] consecutive elements of [size] bytes starting at [off] now hold the words [us], and nothing else changed. *)
Definition stores (size off : nat) (us : list Z) (bb bb' : list ascii) : Prop :=
  List.length bb' = List.length bb
  /\ (forall j u, nth_error us j = Some u -> bb_read_int bb' size (off + j * size) = Ok (word_of size u))
  /\ (forall i, i < off \/ off + List.length us * size <= i -> nth_error bb' i = nth_error bb i).

(** The string parameter at [off] holds a terminated string. *)
Definition terminated (max off : nat) (bb : list ascii) : Prop :=
  exists i, i <= max /\ nth_error bb (off + i) = Some zero.
