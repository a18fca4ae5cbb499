(** Model of the text utilities: tokenizer, join, number parsing and printing. *)
From Coq Require Import List Arith ZArith Bool Ascii String Lia.
From Verif Require Import Base.
Import ListNotations.

(** ** Tokenizer (utility/Tokenizer.cpp) *)

(** Tokenizer.cpp:35 defaultDelimiters: space, \n, \r, \t, \v, \f. *)
Definition default_delimiters : str :=
  [" "; "010"; "013"; "009"; "011"; "012"]%char.

(** Tokenizer.cpp:42-78 split.  State of the loop: tokens already pushed (in order), current token
    (in order), the [leftover] flag. *)
Fixpoint split_loop (delims : str) (merge : bool) (input : str)
         (result : list str) (token : str) (leftover : bool) : list str :=
  match input with
  | [] => if leftover then result ++ [token] else result
  | c :: input' =>
      if in_chars delims c then
        if merge then
          match token with
          | [] => split_loop delims merge input' result token false
          | _ :: _ => split_loop delims merge input' (result ++ [token]) [] false
          end
        else split_loop delims merge input' (result ++ [token]) [] true
      else split_loop delims merge input' result (token ++ [c]) true
  end.

Definition split (input delims : str) (merge : bool) : list str :=
  split_loop delims merge input [] [] false.

(** Utility.h:54-83 join / asString on a sequence of strings: accumulate from the left. *)
Definition join (sep : str) (l : list str) : str :=
  match l with
  | [] => []
  | x :: l' => fold_left (fun acc r => acc ++ sep ++ r) l' x
  end.

(** ** Characters *)

Definition chr_code (c : ascii) : Z := bval c.

(** isspace() in the C locale: \t \n \v \f \r and space. *)
Definition is_space (c : ascii) : bool :=
  let z := chr_code c in ((9 <=? z) && (z <=? 13) || (z =? 32))%Z.

(** Value of a digit character in bases up to 16 (num_base::_S_atoms_in order of libstdc++). *)
Definition digit_val (c : ascii) : option Z :=
  (let z := chr_code c in
   if (48 <=? z) && (z <=? 57) then Some (z - 48)
   else if (97 <=? z) && (z <=? 102) then Some (z - 87)
   else if (65 <=? z) && (z <=? 70) then Some (z - 55)
   else None)%Z.

(** Digit character, upper case (std::uppercase). *)
Definition digit_char (d : Z) : ascii :=
  (if d <? 10 then byte_of (48 + d) else byte_of (55 + d))%Z.

(** ** Extraction of integers from a stream *)

(** Extract the longest run of digits in base [b]; returns the accumulated value, whether at least one digit
    was found, and what remains.  Models the "Extract" loop of libstdc++'s num_get::_M_extract_int
    (C locale).  Simplification: the value is accumulated without bound, the overflow flag of libstdc++ is the
    comparison of this value with the bounds of the type. *)
Fixpoint take_digits (b : Z) (acc : Z) (any : bool) (s : str) : Z * bool * str :=
  match s with
  | [] => (acc, any, [])
  | c :: s' =>
      match digit_val c with
      | Some d => if (d <? b)%Z then take_digits b (b * acc + d)%Z true s' else (acc, any, s)
      | None => (acc, any, s)
      end
  end.

Fixpoint skip_ws (s : str) : str :=
  match s with
  | c :: s' => if is_space c then skip_ws s' else s
  | [] => []
  end.

(** C++ integer types. *)
Record ctype := CType { ct_signed : bool; ct_bytes : nat }.

Definition ct_lo (t : ctype) : Z :=
  if ct_signed t then (- 2 ^ (8 * Z.of_nat (ct_bytes t) - 1))%Z else 0%Z.
Definition ct_hi (t : ctype) : Z :=
  if ct_signed t then (2 ^ (8 * Z.of_nat (ct_bytes t) - 1) - 1)%Z
  else (2 ^ (8 * Z.of_nat (ct_bytes t)) - 1)%Z.

Definition in_ctype (t : ctype) (v : Z) : bool := ((ct_lo t <=? v) && (v <=? ct_hi t))%Z.

Definition t_int8 := CType true 1.
Definition t_int16 := CType true 2.
Definition t_int32 := CType true 4.
Definition t_uint8 := CType false 1.
Definition t_uint16 := CType false 2.
Definition t_uint32 := CType false 4.
Definition t_uint64 := CType false 8.

(** Conversion of an arithmetic value to an integer type (static_cast / implicit conversion):
    modulo 2^n, for signed targets as implemented by all compilers the project supports. *)
Definition to_ctype (t : ctype) (v : Z) : Z :=
  (let m := 2 ^ (8 * Z.of_nat (ct_bytes t)) in
   let u := v mod m in
   if ct_signed t && (m / 2 <=? u) then u - m else u)%Z.

(** [ss >> v] for an integer [v] of type [t], in base [b] (10 or 16): [None] when the failbit is set, else the value and
    the unread characters.  libstdc++, C locale: leading white space skipped, optional sign, in
    base 16 an optional 0x/0X, then digits. *)
Definition stream_int (b : Z) (t : ctype) (s : str) : option (Z * str) :=
  let s1 := skip_ws s in
  let '(neg, s2) := match s1 with
                    | c :: r => if char_eqb c "-"%char then (true, r)
                                else if char_eqb c "+"%char then (false, r) else (false, s1)
                    | [] => (false, [])
                    end in
  let s3 := if (b =? 16)%Z then
              match s2 with
              | c0 :: c1 :: r => if char_eqb c0 "0"%char && (char_eqb c1 "x"%char || char_eqb c1 "X"%char)
                                 then r else s2
              | _ => s2
              end
            else s2 in
  let '(mag, any, rest) := take_digits b 0 false s3 in
  if any then
    if ct_signed t then
      let v := if neg then (- mag)%Z else mag in
      if in_ctype t v then Some (v, rest) else None
    else if (mag <=? ct_hi t)%Z then
      Some (if neg then ((- mag) mod (ct_hi t + 1))%Z else mag, rest)
    else None
  else None.

(** ** convertTo (utility/convert.hpp) *)

(** convert.hpp:125 characters rejected anywhere in the text: \r \n \t \v and space (not \f). *)
Definition convert_rejected : str := ["013"; "010"; "009"; "011"; " "]%char.

(** convert.hpp:117-152 details::convertTo<T> for an integer type. *)
Definition convert_int (t : ctype) (s : str) : option Z :=
  if existsb (in_chars convert_rejected) s then None
  else if in_chars s "-"%char && negb (ct_signed t) then None
  else
    let b := match s with
             | c0 :: c1 :: _ => if char_eqb c0 "0"%char && char_eqb c1 "x"%char then 16%Z else 10%Z
             | _ => 10%Z
             end in
    match stream_int b t s with
    | Some (v, []) => Some v
    | _ => None
    end.

(** convert.hpp:154-177 convertToVia and 219-233: 8 bit types go through (unsigned) int. *)
Definition convert_via (t via : ctype) (s : str) : option Z :=
  match convert_int via s with
  | Some v => if in_ctype t v then Some v else None
  | None => None
  end.

(** convertTo<T> with its specialisations for 8 bit types (convert.hpp:196-233). *)
Definition convertTo (t : ctype) (s : str) : option Z :=
  if ct_bytes t =? 1 then convert_via t (CType (ct_signed t) 4) s else convert_int t s.

(** convert.hpp:309-323 convertTo<bool>. *)
Definition convert_bool (s : str) : option bool :=
  if str_eqb s (lit "0") || str_eqb s (lit "FALSE") || str_eqb s (lit "false") then Some false
  else if str_eqb s (lit "1") || str_eqb s (lit "TRUE") || str_eqb s (lit "true") then Some true
  else None.

(** Utility.cpp:60-63 isHexadecimal. *)
Definition is_hexadecimal (s : str) : bool :=
  match s with
  | c0 :: c1 :: _ => char_eqb c0 "0"%char && (char_eqb c1 "x"%char || char_eqb c1 "X"%char)
  | _ => false
  end.

(** strtoull(s, nullptr, 0) of the C library (glibc): white space, sign, 0x => 16, 0 => 8, else 10;
    no digits => 0; out of range => ULLONG_MAX; a minus sign negates modulo 2^64. *)
Definition strtoull0 (s : str) : Z :=
  let s1 := skip_ws s in
  let '(neg, s2) := match s1 with
                    | c :: r => if char_eqb c "-"%char then (true, r)
                                else if char_eqb c "+"%char then (false, r) else (false, s1)
                    | [] => (false, [])
                    end in
  let '(b, s3) := match s2 with
                  | c0 :: c1 :: c2 :: r =>
                      if char_eqb c0 "0"%char && (char_eqb c1 "x"%char || char_eqb c1 "X"%char)
                         && match digit_val c2 with Some _ => true | None => false end
                      then (16%Z, c2 :: r)
                      else if char_eqb c0 "0"%char then (8%Z, s2) else (10%Z, s2)
                  | c0 :: _ => if char_eqb c0 "0"%char then (8%Z, s2) else (10%Z, s2)
                  | [] => (10%Z, s2)
                  end in
  let '(mag, _, _) := take_digits b 0 false s3 in
  if (mag <=? 2 ^ 64 - 1)%Z then (if neg then (- mag) mod 2 ^ 64 else mag)%Z else (2 ^ 64 - 1)%Z.

(** ** Printing of integers (operator<< on ostringstream, std::to_string) *)

Fixpoint digits_loop (fuel : nat) (b n : Z) (acc : str) : str :=
  match fuel with
  | O => acc
  | S f => if (n <? b)%Z then digit_char n :: acc
           else digits_loop f b (n / b)%Z (digit_char (n mod b) :: acc)
  end.

(** Digits of [n >= 0] in base [b >= 2], no leading zero (["0"] for 0).  The fuel
    [log2 n + 1] is always sufficient. *)
Definition print_base (b n : Z) : str := digits_loop (S (Z.to_nat (Z.log2 n))) b n [].

(** Decimal text of an integer. *)
Definition print_dec (z : Z) : str :=
  if (z <? 0)%Z then "-"%char :: print_base 10 (- z) else print_base 10 z.

(** std::setw(width) with std::setfill('0'), right adjusted. *)
Definition pad0 (width : nat) (s : str) : str :=
  repeat "0"%char (width - List.length s) ++ s.

(** "0x" << std::hex << std::uppercase << std::setw(width) << std::setfill('0') << n *)
Definition print_hex (width : nat) (n : Z) : str :=
  lit "0x" ++ pad0 width (print_base 16 n).
