(** Rational model of the floating point values handled by the parameter types: rounding to a
    binary format, textual input and output.  Finite doubles and floats are represented by the rational they denote. *)
From Coq Require Import List Arith ZArith QArith Qround Qabs Bool Ascii String Lia.
From Verif Require Import Base TextModel.
Import ListNotations.

(** A C++ double given by a caller. *)
Inductive dbl := DFin (q : Q) | DNegZero | DInf (neg : bool) | DNan.

(** Comparisons of IEEE 754: false as soon as one side is a NaN. *)
Definition dbl_le_q (d : dbl) (b : Q) : bool :=
  match d with
  | DFin q => Qle_bool q b | DNegZero => Qle_bool 0 b | DInf neg => neg | DNan => false
  end.
Definition q_le_dbl (b : Q) (d : dbl) : bool :=
  match d with
  | DFin q => Qle_bool b q | DNegZero => Qle_bool b 0 | DInf neg => negb neg | DNan => false
  end.

(** 2^e for any integer exponent. *)
Definition pow2 (e : Z) : Q := Qpower 2 e.

(** Floor of the base-2 logarithm of a positive rational. *)
Definition qlog2 (q : Q) : Z :=
  let e := (Z.log2 (Qnum q) - Z.log2 (Zpos (Qden q)))%Z in
  if Qle_bool (pow2 e) q then e else (e - 1)%Z.

(** Round to the nearest integer, ties to even (IEEE 754 default rounding). *)
Definition round_even (q : Q) : Z :=
  let f := Qfloor q in
  let r := (q - inject_Z f)%Q in
  match Qcompare r (1 # 2) with
  | Lt => f
  | Gt => (f + 1)%Z
  | Eq => if Z.even f then f else (f + 1)%Z
  end.

(** C function round(): nearest integer, ties away from zero. *)
Definition round_away (q : Q) : Z :=
  if Qle_bool 0 q then Qfloor (q + (1 # 2)) else (- Qfloor (- q + (1 # 2)))%Z.

(** Rounding of a rational to the binary format with [prec] bits of precision and smallest exponent [emin]
    (53, -1074 for double; 24, -149 for float); the result is a rational; overflow is left to the caller. *)
Definition round_fp (prec emin : Z) (q : Q) : Q :=
  if Qeq_bool q 0 then 0%Q
  else
    let e := Z.max emin (qlog2 (Qabs q) - prec + 1) in
    (inject_Z (round_even (q * pow2 (- e))) * pow2 e)%Q.

Definition round64 : Q -> Q := round_fp 53 (-1074).
Definition round32 : Q -> Q := round_fp 24 (-149).

Definition max64 : Q := ((pow2 53 - 1) * pow2 971)%Q.
Definition max32 : Q := ((pow2 24 - 1) * pow2 104)%Q.

(** ** Decimal text input *)

(** Digits of the text as a number and their count, and what follows. *)
Fixpoint take_dec (acc : Z) (n : nat) (s : str) : Z * nat * str :=
  match s with
  | c :: s' => match digit_val c with
               | Some d => if (d <? 10)%Z then take_dec (10 * acc + d)%Z (S n) s' else (acc, n, s)
               | None => (acc, n, s)
               end
  | [] => (acc, n, [])
  end.

Definition pow10 (e : Z) : Q := Qpower 10 e.

(** Sign and exact magnitude of a decimal text [sign] digits [. digits] [e [sign] digits], the whole text being used,
    as accepted by stream extraction of a floating point value (libstdc++ num_get, C locale).  Leading white space is
    skipped. *)
Definition parse_decimal (s : str) : option (bool * Q) :=
  let s1 := skip_ws s in
  let '(neg, s2) := match s1 with
                    | c :: r => if char_eqb c "-"%char then (true, r)
                                else if char_eqb c "+"%char then (false, r) else (false, s1)
                    | [] => (false, [])
                    end in
  let '(ip, ni, s3) := take_dec 0 0 s2 in
  let '(m, nf, s4) := match s3 with
                      | c :: r => if char_eqb c "."%char then take_dec ip 0 r else (ip, 0%nat, s3)
                      | [] => (ip, 0%nat, [])
                      end in
  if (ni + nf =? 0)%nat then None
  else
    let scaled := (inject_Z m * pow10 (- Z.of_nat nf))%Q in
    match s4 with
    | [] => Some (neg, scaled)
    | c :: r =>
        if char_eqb c "e"%char || char_eqb c "E"%char then
          let '(eneg, r2) := match r with
                             | d :: r' => if char_eqb d "-"%char then (true, r')
                                          else if char_eqb d "+"%char then (false, r') else (false, r)
                             | [] => (false, [])
                             end in
          let '(e, ne, r3) := take_dec 0 0 r2 in
          if (ne =? 0)%nat then None
          else match r3 with
               | [] => Some (neg, scaled * pow10 (if eneg then - e else e))%Q
               | _ => None
               end
        else None
    end.

(** convertTo<double> and convertTo<float> (utility/convert.hpp:117-152, 249-290): white space (but \f) and
    hexadecimal rejected, magnitude correctly rounded to the format, overflow rejected.  Sign and rounded magnitude. *)
Definition convert_real (prec emin : Z) (maxq : Q) (s : str) : option (bool * Q) :=
  if existsb (in_chars convert_rejected) s then None
  else if match s with
          | c0 :: c1 :: _ => char_eqb c0 "0"%char && char_eqb c1 "x"%char
          | _ => false
          end then None
  else match parse_decimal s with
       | Some (neg, q) => let r := round_fp prec emin q in
                          if Qle_bool r maxq then Some (neg, r) else None
       | None => None
       end.

Definition convert_double : str -> option (bool * Q) := convert_real 53 (-1074) max64.
Definition convert_float : str -> option (bool * Q) := convert_real 24 (-149) max32.

(** The number denoted by a sign and a magnitude. *)
Definition signed_q (sm : bool * Q) : Q := if fst sm then (- snd sm)%Q else snd sm.

(** ** Decimal text output *)

(** std::fixed << std::setprecision(m) of the value [x / 2^m]: exact, since such a value has at most
    [m] decimal fractional digits. *)
Definition print_fixed_dyadic (m : nat) (x : Z) : str :=
  let scaled := (Z.abs x * 5 ^ Z.of_nat m)%Z in
  let ip := (scaled / 10 ^ Z.of_nat m)%Z in
  let fp := (scaled mod 10 ^ Z.of_nat m)%Z in
  (if (x <? 0)%Z then ["-"%char] else []) ++ print_base 10 ip
  ++ (if (m =? 0)%nat then [] else "."%char :: pad0 m (print_base 10 fp)).

(** operator<< of a float with the default format (%g, precision 6), for a finite non-zero rational.
    [p] digits mantissa and decimal exponent after correct rounding (ties to even on the exact value). *)
Definition sig_digits (p : Z) (q : Q) : Z * Z :=
  (* decimal exponent estimate from the binary one, corrected by at most one step *)
  let x0 := (qlog2 q * 30103 / 100000)%Z in
  let x1 := if Qle_bool (pow10 (x0 + 1)) q then (x0 + 1)%Z
            else if Qle_bool (pow10 x0) q then x0 else (x0 - 1)%Z in
  let m := round_even (q * pow10 (p - 1 - x1)) in
  if (m =? 10 ^ p)%Z then ((m / 10)%Z, (x1 + 1)%Z) else (m, x1).

(** Removal of the trailing zeros of a digit string (reversed list). *)
Fixpoint drop0 (s : str) : str :=
  match s with c :: s' => if char_eqb c "0"%char then drop0 s' else s | [] => [] end.
Definition strip_trailing0 (s : str) : str := rev (drop0 (rev s)).

Definition print_g6_pos (q : Q) : str :=
  let '(m, x) := sig_digits 6 q in
  let ds := print_base 10 m in
  if (x <? -4)%Z || (6 <=? x)%Z then
    let fr := strip_trailing0 (skipn 1 ds) in
    firstn 1 ds ++ (match fr with [] => [] | _ => "."%char :: fr end)
    ++ "e"%char :: (if (x <? 0)%Z then "-"%char else "+"%char) :: pad0 2 (print_base 10 (Z.abs x))
  else if (x <? 0)%Z then
    lit "0." ++ repeat "0"%char (Z.to_nat (- x - 1)) ++ strip_trailing0 ds
  else
    let fr := strip_trailing0 (skipn (Z.to_nat (x + 1)) ds) in
    firstn (Z.to_nat (x + 1)) ds ++ (match fr with [] => [] | _ => "."%char :: fr end).

Definition print_g6 (q : Q) : str :=
  if Qeq_bool q 0 then lit "0"
  else if Qle_bool 0 q then print_g6_pos q else "-"%char :: print_g6_pos (- q).

(** ** binary32 memory representation *)

Definition f32_sign (u : Z) : bool := Z.testbit u 31.
Definition f32_exp (u : Z) : Z := (Z.shiftr u 23 mod 256)%Z.
Definition f32_mant (u : Z) : Z := (u mod 2 ^ 23)%Z.

(** std::isfinite *)
Definition f32_finite (u : Z) : bool := negb (f32_exp u =? 255)%Z.

(** Magnitude of a finite 32 bit pattern. *)
Definition f32_mag (u : Z) : Q :=
  if (f32_exp u =? 0)%Z then (inject_Z (f32_mant u) * pow2 (-149))%Q
  else (inject_Z (f32_mant u + 2 ^ 23) * pow2 (f32_exp u - 150))%Q.

(** Value of a finite 32 bit pattern. *)
Definition f32_value (u : Z) : Q := signed_q (f32_sign u, f32_mag u).

(** Bits of a number of the binary32 format given by its sign and magnitude. *)
Definition f32_bits (sm : bool * Q) : Z :=
  let a := snd sm in
  ((if fst sm then 2 ^ 31 else 0)
   + if Qeq_bool a 0 then 0
     else
       let e := Z.max (-149) (qlog2 a - 23) in
       let m := round_even (a * pow2 (- e)) in
       if m <? 2 ^ 23 then m else (e + 149) * 2 ^ 23 + m)%Z.

(** Conversion of a 32 bit pattern to a double. *)
Definition f32_to_dbl (u : Z) : dbl :=
  if f32_finite u then
    if f32_sign u && (u =? 2 ^ 31)%Z then DNegZero else DFin (f32_value u)
  else if (f32_mant u =? 0)%Z then DInf (f32_sign u) else DNan.

(** operator<< (default format) of a float given by its bits. *)
Definition print_f32 (u : Z) : str :=
  (if f32_sign u then ["-"%char] else [])
  ++ (if f32_finite u then print_g6 (f32_mag u)
      else if (f32_mant u =? 0)%Z then lit "inf" else lit "nan").
