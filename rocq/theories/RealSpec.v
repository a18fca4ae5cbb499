(** Specification vocabulary for real numbers as text, fixed point and floating point values. *)
From Coq Require Import List Arith ZArith QArith Qabs Ascii String.
From Verif Require Import Base TextSpec.
Import ListNotations.
Open Scope Q_scope.

(** Optional sign character. *)
Definition sign_text (neg : bool) (s : str) : Prop :=
  if neg then s = ["-"%char] else s = [] \/ s = ["+"%char].

(** Optional exponent. *)
Definition exponent_text (s : str) (e : Z) : Prop :=
  (s = [] /\ e = 0%Z)
  \/ exists c sg neg r ds, (c = "e"%char \/ c = "E"%char) /\ s = c :: sg ++ r /\ sign_text neg sg
       /\ Forall2 dec_digit r ds /\ ds <> [] /\ e = (if neg then - positional 10 ds else positional 10 ds)%Z.

(** Sign and magnitude of a decimal text: digits, optional point and digits, optional exponent. *)
Definition real_text (neg : bool) (s : str) (q : Q) : Prop :=
  exists sg s1 ds1 frac s2 ds2 ex e,
    s = sg ++ s1 ++ frac ++ ex /\ sign_text neg sg
    /\ Forall2 dec_digit s1 ds1 /\ Forall2 dec_digit s2 ds2
    /\ (frac = "."%char :: s2 \/ (frac = [] /\ s2 = []))
    /\ ds1 ++ ds2 <> [] /\ exponent_text ex e
    /\ q == inject_Z (positional 10 (ds1 ++ ds2)) * Qpower 10 (e - Z.of_nat (List.length ds2)).

(** Real number denoted by a text. *)
Definition denotes_real (s : str) (q : Q) : Prop :=
  exists neg m, real_text neg s m /\ q == if neg then - m else m.

(** [r] is the closest number to [q] among the numbers of the binary format with [prec] bits of precision and smallest
    exponent [emin] (53 and -1074: double; 24 and -149: float), overflow apart. *)
Definition format_number (prec emin : Z) (r : Q) : Prop :=
  exists k e, r == inject_Z k * Qpower 2 e /\ (Z.abs k < 2 ^ prec)%Z /\ (emin <= e)%Z.
Definition nearest_number (prec emin : Z) (q r : Q) : Prop :=
  format_number prec emin r /\ forall r', format_number prec emin r' -> Qabs (r - q) <= Qabs (r' - q).

(** Values of a Qn.m fixed point parameter: k / 2^m, with n + m + 1 bits. *)
Definition q_value (m : nat) (k : Z) : Q := inject_Z k / inject_Z (2 ^ Z.of_nat m).
Definition q_range (n m : nat) (k : Z) : Prop :=
  (- 2 ^ (Z.of_nat n + Z.of_nat m) <= k < 2 ^ (Z.of_nat n + Z.of_nat m))%Z.

(** [r] is the closest number to [q] among the decimal numbers of [n] significant digits. *)
Definition significant (n : Z) (r : Q) : Prop := exists k e, r == inject_Z k * Qpower 10 e /\ (Z.abs k < 10 ^ n)%Z.
Definition nearest_decimal (n : Z) (q r : Q) : Prop :=
  significant n r /\ forall r', significant n r' -> Qabs (r - q) <= Qabs (r' - q).
