(** Specification vocabulary for texts, independent of the model functions. *)
From Coq Require Import List Arith ZArith Bool Ascii String Lia.
From Verif Require Import Base.
Import ListNotations.

(** [fields ds input fs]: [fs] are the pieces of [input] between consecutive single delimiters. *)
Inductive fields (ds : str) : str -> list str -> Prop :=
| fields_last : forall f, (forall c, In c f -> ~ In c ds) -> fields ds f [f]
| fields_cons : forall f d rest fs,
    (forall c, In c f -> ~ In c ds) -> In d ds -> fields ds rest fs ->
    fields ds (f ++ d :: rest) (f :: fs).

(** [runs ds input ts]: [ts] are the maximal non-empty delimiter-free pieces of [input], in order. *)
Inductive runs (ds : str) : str -> list str -> Prop :=
| runs_none : forall g, (forall c, In c g -> In c ds) -> runs ds g []
| runs_last : forall g t,
    (forall c, In c g -> In c ds) -> t <> [] -> (forall c, In c t -> ~ In c ds) ->
    runs ds (g ++ t) [t]
| runs_cons : forall g t d rest ts,
    (forall c, In c g -> In c ds) -> t <> [] -> (forall c, In c t -> ~ In c ds) ->
    In d ds -> runs ds rest ts -> runs ds (g ++ t ++ d :: rest) (t :: ts).

(** Value of a digit string, most significant digit first. *)
Definition positional (base : Z) (ds : list Z) : Z := fold_left (fun a d => base * a + d)%Z ds 0%Z.

Definition dec_digit (c : ascii) (d : Z) : Prop := (0 <= d <= 9)%Z /\ bval c = (48 + d)%Z.

Definition hex_digit (c : ascii) (d : Z) : Prop :=
  dec_digit c d
  \/ (10 <= d <= 15 /\ bval c = 87 + d)%Z    (* a..f *)
  \/ (10 <= d <= 15 /\ bval c = 55 + d)%Z.   (* A..F *)

(** [int_text s v]: [s] is a plain integer literal of value [v]: digits with an optional sign,
    or 0x followed by hexadecimal digits. *)
Inductive int_text : str -> Z -> Prop :=
| it_dec : forall s ds, ds <> [] -> Forall2 dec_digit s ds -> int_text s (positional 10 ds)
| it_plus : forall s ds, ds <> [] -> Forall2 dec_digit s ds ->
    int_text ("+"%char :: s) (positional 10 ds)
| it_minus : forall s ds, ds <> [] -> Forall2 dec_digit s ds ->
    int_text ("-"%char :: s) (- positional 10 ds)
| it_hex : forall s ds, ds <> [] -> Forall2 hex_digit s ds ->
    int_text ("0"%char :: "x"%char :: s) (positional 16 ds).
