(** Vocabulary of the statements about the remote protocol. *)
From Coq Require Import List Arith ZArith Bool Ascii.
From Verif Require Import Base BlackboardModel RemoteModel.
Import ListNotations.
Local Open Scope nat_scope.

Definition is_blank (c : byte) : Prop := In c blanks.

(** [t] is [s] without the blanks at both ends. *)
Definition trimmed (s t : str) : Prop :=
  exists p q, s = p ++ t ++ q /\ Forall is_blank p /\ Forall is_blank q
    /\ (forall c r, t = c :: r -> ~ is_blank c) /\ (forall c r, t = r ++ [c] -> ~ is_blank c).

Definition no_nul (s : str) : Prop := ~ In zero s.

(** The message, with its identifier, has less than 2^32 bytes. *)
Definition fits (command : str) (args : list str) : Prop :=
  (Z.of_nat (5 + List.length command + list_sum (map (fun s => (4 + List.length s)%nat) args)) < 2 ^ 32)%Z.

(** [data] is the concatenation of the strings of [l], each preceded by its length on four bytes. *)
Inductive packed : list str -> list byte -> Prop :=
  | packed_nil : packed [] []
  | packed_cons : forall s l data, (Z.of_nat (List.length s) < 2 ^ 32 - 1)%Z -> packed l data ->
      packed (s :: l) (le_encode 4 (Z.of_nat (List.length s)) ++ s ++ data).

(** [s'] is [s] with exactly one byte altered, at [i]. *)
Definition altered (i : nat) (s s' : list byte) : Prop :=
  List.length s' = List.length s /\ i < List.length s /\ nth_error s' i <> nth_error s i
  /\ forall j, j <> i -> nth_error s' j = nth_error s j.

(** The commands processed one after the other: the answers, and the state after. *)
Fixpoint process_all {S : Type} (process : S -> request -> outcome (answer * S)) (st : S) (l : list request) : outcome (list answer * S) :=
  match l with
  | [] => Ok ([], st)
  | q :: r => do x <- process st q; do z <- process_all process (snd x) r; Ok (fst x :: fst z, snd z)
  end.

(** The bytes of the frame of a message. *)
Definition frame (id : byte) (data : list byte) : list byte :=
  le_encode 2 sync_word ++ le_encode 4 (Z.of_nat (1 + List.length data)) ++ [id] ++ data ++ [checksum id data].
