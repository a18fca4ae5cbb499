(** Common vocabulary of the model: outcomes, bytes, strings, byte lists.
    Nothing here models a particular C++ function. *)
From Coq Require Import List Arith ZArith Bool Ascii String Lia.
Import ListNotations.

(** Outcome of a modelled C++ function:
    [Ok a]   normal termination with a result;
    [Err]    the function reports an error (returns false / throws a caught exception);
    [Abort]  the process is terminated (ALWAYS_ASSERT, std::terminate);
    [UB]     undefined behaviour of the C++ abstract machine. *)
Inductive outcome (A : Type) : Type :=
| Ok (a : A)
| Err
| Abort
| UB.
Arguments Ok {A} a.
Arguments Err {A}.
Arguments Abort {A}.
Arguments UB {A}.

Definition obind {A B} (o : outcome A) (f : A -> outcome B) : outcome B :=
  match o with
  | Ok a => f a
  | Err => Err
  | Abort => Abort
  | UB => UB
  end.

Definition omap {A B} (f : A -> B) (o : outcome A) : outcome B :=
  obind o (fun a => Ok (f a)).

Notation "'do' x <- e ; f" := (obind e (fun x => f))
  (at level 200, x pattern, e at level 100, f at level 200, right associativity).

(** Strings and memory are lists of 8 bit characters. *)
Notation byte := ascii (only parsing).
Notation str := (list ascii) (only parsing).

(** Literals. *)
Definition lit (x : string) : str := list_ascii_of_string x.

Definition char_eqb (a b : ascii) : bool := Ascii.eqb a b.

Fixpoint str_eqb (a b : str) : bool :=
  match a, b with
  | [], [] => true
  | x :: a', y :: b' => char_eqb x y && str_eqb a' b'
  | _, _ => false
  end.

(** Membership of a character in a set of characters (std::string::find(c) != npos). *)
Definition in_chars (cs : str) (c : ascii) : bool := existsb (char_eqb c) cs.

Global Arguments in_chars : simpl never.
Global Arguments char_eqb : simpl never.

(** Numeric value of a byte and back. *)
Definition bval (b : byte) : Z := Z.of_N (N_of_ascii b).
Definition byte_of (z : Z) : byte := ascii_of_N (Z.to_N (z mod 256)).

(** Little-endian encoding on [n] bytes, and decoding (unsigned). *)
Fixpoint le_encode (n : nat) (z : Z) : list byte :=
  match n with
  | O => []
  | S n' => byte_of z :: le_encode n' (z / 256)
  end.

Fixpoint le_decode (l : list byte) : Z :=
  match l with
  | [] => 0
  | b :: l' => bval b + 256 * le_decode l'
  end%Z.

(** [overwrite l off d]: [l] with the bytes from [off] replaced by [d]
    (meaningful when [off + length d <= length l]). *)
Definition overwrite {A} (l : list A) (off : nat) (d : list A) : list A :=
  firstn off l ++ d ++ skipn (off + List.length d) l.

(** [slice l off n]: the [n] items of [l] from [off]. *)
Definition slice {A} (l : list A) (off n : nat) : list A := firstn n (skipn off l).

Fixpoint list_sum (l : list nat) : nat :=
  match l with [] => 0 | x :: l' => x + list_sum l' end.
