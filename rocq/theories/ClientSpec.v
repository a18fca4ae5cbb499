(** Vocabulary of the statements about the command line client. *)
From Coq Require Import List Arith ZArith Bool Ascii.
From Verif Require Import Base BlackboardModel RemoteModel RemoteSpec ClientModel.
Import ListNotations.
Local Open Scope nat_scope.

(** [u] is the text [t] up to its first NUL, if it has one. *)
Definition up_to_nul (t u : str) : Prop := no_nul u /\ (t = u \/ exists r, t = u ++ zero :: r).

(** The end of a line. *)
Definition line_end : str := [ascii_of_nat 10].

(** Success: the text on the output, nothing on the error output, code 0; and failure: the opposite, code 1. *)
Definition succeeds (e : exit) (text : str) : Prop := e = Exit 0 (text ++ line_end) [].
Definition fails (e : exit) (text : str) : Prop := e = Exit 1 [] (text ++ line_end).

(** The bytes of a well-formed answer: its identifier, its text, and more. *)
Definition answers (s : list byte) (id : byte) (text : str) : Prop :=
  exists more rest, s = frame id (le_encode 4 (Z.of_nat (List.length text)) ++ text ++ more) ++ rest
    /\ (Z.of_nat (List.length text + List.length more) < 2 ^ 32 - 5)%Z.

(** A text that an answer can hold. *)
Definition holds (text : str) : Prop := (Z.of_nat (5 + List.length text) < 2 ^ 32)%Z.
