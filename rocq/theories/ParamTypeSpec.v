(** Specification vocabulary for parameter values, independent of the model functions. *)
From Coq Require Import List Arith ZArith QArith Bool Ascii String Lia.
From Verif Require Import Base TextSpec.
Import ListNotations.
Open Scope Z_scope.

(** Two's complement reading of the [bytes] byte word [w]. *)
Definition two_compl (bytes : nat) (w : Z) : Z :=
  if w <? 2 ^ (8 * Z.of_nat bytes - 1) then w else w - 2 ^ (8 * Z.of_nat bytes).

(** Bounds of the values of [bytes] bytes. *)
Definition width_lo (signed : bool) (bytes : nat) : Z := if signed then - 2 ^ (8 * Z.of_nat bytes - 1) else 0.
Definition width_hi (signed : bool) (bytes : nat) : Z :=
  if signed then 2 ^ (8 * Z.of_nat bytes - 1) - 1 else 2 ^ (8 * Z.of_nat bytes) - 1.

Definition hex_prefixed (s : str) : Prop := exists r, s = "0"%char :: "x"%char :: r.

(** The value denoted by a text for an integer parameter: a decimal number (a minus sign only makes sense for a
    signed parameter), or the hexadecimal memory word of the parameter. *)
Inductive int_denotes (signed : bool) (bytes : nat) (s : str) : Z -> Prop :=
| den_dec : forall v, ~ hex_prefixed s -> int_text s v -> (signed = false -> ~ In "-"%char s) ->
    int_denotes signed bytes s v
| den_hex : forall w, hex_prefixed s -> int_text s w -> 0 <= w < 2 ^ (8 * Z.of_nat bytes) ->
    int_denotes signed bytes s (if signed then two_compl bytes w else w).

(** Decimal numeral without superfluous zeros. *)
Definition dec_numeral (s : str) (v : Z) : Prop :=
  exists ds, Forall2 dec_digit s ds /\ positional 10 ds = v
    /\ (ds = [0] \/ exists d r, ds = d :: r /\ d <> 0).

(** Canonical decimal text of an integer. *)
Definition canon_dec (s : str) (v : Z) : Prop :=
  (0 <= v /\ dec_numeral s v) \/ (v < 0 /\ exists r, s = "-"%char :: r /\ dec_numeral r (- v)).

Definition upper_hex_digit (c : ascii) (d : Z) : Prop :=
  dec_digit c d \/ (10 <= d <= 15 /\ bval c = 55 + d).

(** Canonical hexadecimal text of the memory word [w]: 0x and two upper case digits per byte. *)
Definition canon_hex (bytes : nat) (s : str) (w : Z) : Prop :=
  exists r ds, s = "0"%char :: "x"%char :: r /\ List.length r = (2 * bytes)%nat
    /\ Forall2 upper_hex_digit r ds /\ positional 16 ds = w.

(** Memory word of [bytes] bytes holding [v]. *)
Definition word_of (bytes : nat) (v : Z) : Z := v mod 2 ^ (8 * Z.of_nat bytes).

(** Number texts with a single reading in C: decimal without superfluous zeros, or 0x and hexadecimal digits. *)
Definition plain_number (s : str) (v : Z) : Prop :=
  dec_numeral s v
  \/ exists r ds, s = "0"%char :: "x"%char :: r /\ ds <> [] /\ Forall2 hex_digit r ds /\ positional 16 ds = v.
