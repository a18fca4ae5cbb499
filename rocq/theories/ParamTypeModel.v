(** Model of the parameter types: conversions between user values and the 32 bit value kept on the blackboard. *)
From Coq Require Import List Arith ZArith QArith Qround Qabs Bool Ascii String Lia.
From Verif Require Import Base TextModel RealModel.
Import ListNotations.

Open Scope Z_scope.

(** Value space and output format of an access (ParameterAccessContext.h:
    valueSpaceIsRaw, outputRawFormatIsHex). *)
Record fmt := Fmt { f_raw : bool; f_hex : bool }.

(** Types handled through a 32 bit blackboard value.
    [PInt]: CIntegerParameterType<isSigned, 8*bytes> with _min, _max (IntegerParameterType.h:64-345),
            without the optional adaptation child (see [AdaptModel.v]).
    [PBool]: CBooleanParameterType.  [PEnum]: CEnumParameterType with its value pairs in order.
    [PFix]: CFixedPointParameterType with _uiIntegral, _uiFractional.
    [PFloat]: CFloatingPointParameterType with _fMin, _fMax. *)
Inductive ptype :=
| PInt (signed : bool) (bytes : nat) (lo hi : Z)
| PBool
| PEnum (bytes : nat) (pairs : list (str * Z))
| PFix (bytes n m : nat)
| PFloat (fmin fmax : Q).

(** ParameterType.h getSize / _size: bytes used by one value. *)
Definition pt_size (t : ptype) : nat :=
  match t with
  | PInt _ b _ _ => b
  | PBool => 1
  | PEnum b _ => b
  | PFix b _ _ => b
  | PFloat _ _ => 4
  end.

(** ** Common helpers (ParameterType.cpp) *)

(** ParameterType.cpp:151-161 doSignExtend on an int32_t: (data << shift) >> shift.  The left shift of a negative value is
    taken as the two's complement one. *)
Definition sign_extend (bytes : nat) (data : Z) : Z :=
  let shift := 8 * (4 - Z.of_nat bytes) in
  Z.shiftr (to_ctype t_int32 (Z.shiftl data shift)) shift.

(** ParameterType.cpp:176-199 doIsEncodable<uint32_t>. *)
Definition is_encodable (bytes : nat) (data : Z) (is_signed : bool) : bool :=
  if (bytes =? 4)%nat then true
  else
    let shift := 8 * Z.of_nat bytes in
    if negb is_signed then Z.shiftr data shift =? 0
    else if Z.testbit data (shift - 1)
         then Z.shiftr (2 ^ 32 - 1 - data) shift =? 0
         else Z.shiftr data shift =? 0.

(** ParameterType.cpp:202-209 makeEncodable: [1 << 32] on an int is undefined for 4 byte types. *)
Definition make_encodable (bytes : nat) (data : Z) : outcome Z :=
  if (bytes <? 4)%nat then Ok (Z.land data (Z.shiftl 1 (8 * Z.of_nat bytes) - 1)) else UB.

(** ** Integers (IntegerParameterType.h, BaseIntegerParameterType.cpp) *)

(** IntegerParameterType.h:200-234 toBlackboard(string) and 308-339 checkValueAgainstRange: hexadecimal text for a signed
    type goes through the unsigned type of the same size; the value space plays no role. *)
Definition int_of_str (signed : bool) (bytes : nat) (lo hi : Z) (s : str) : outcome Z :=
  let inter := if signed && is_hexadecimal s then CType false bytes else CType signed bytes in
  match convertTo inter s with
  | None => Err
  | Some intermediate =>
      let value := to_ctype (CType signed bytes) intermediate in
      if (value <? lo) || (value >? hi) then Err else Ok (to_ctype t_uint32 value)
  end.

(** IntegerParameterType.h:122-154 fromBlackboard(string). *)
Definition int_to_str (signed : bool) (bytes : nat) (f : fmt) (u : Z) : str :=
  if f_raw f && f_hex f then print_hex (2 * bytes) u
  else if signed then print_dec (sign_extend bytes (to_ctype t_int32 u))
  else print_dec u.

(** IntegerParameterType.h:70-86 doToBlackboard<UserType>, used by 158-169: the bounds are converted to the
    type of the user value before comparing. *)
Definition int_of_user (user : ctype) (lo hi v : Z) : outcome Z :=
  if (v <? to_ctype user lo) || (v >? to_ctype user hi) then Err else Ok (to_ctype t_uint32 v).

(** ** Booleans (BooleanParameterType.cpp) *)

(** BooleanParameterType.cpp:47-72 *)
Definition bool_of_str (s : str) : outcome Z :=
  if str_eqb s (lit "1") || str_eqb s (lit "0x1") then Ok 1
  else if str_eqb s (lit "0") || str_eqb s (lit "0x0") then Ok 0
  else Err.

(** BooleanParameterType.cpp:74-85 *)
Definition bool_to_str (f : fmt) (u : Z) : str :=
  let v := if u =? 0 then lit "0" else lit "1" in
  if f_raw f && f_hex f then lit "0x" ++ v else v.

(** ** Enumerations (EnumParameterType.cpp) *)

(** EnumParameterType.cpp:223-241 getLiteral: first pair with this number. *)
Fixpoint enum_literal (pairs : list (str * Z)) (n : Z) : option str :=
  match pairs with
  | [] => None
  | (l, v) :: r => if v =? n then Some l else enum_literal r n
  end.

(** EnumParameterType.cpp:243-261 getNumerical: first pair with this literal. *)
Fixpoint enum_numerical (pairs : list (str * Z)) (s : str) : option Z :=
  match pairs with
  | [] => None
  | (l, v) :: r => if str_eqb l s then Some v else enum_numerical r s
  end.

(** EnumParameterType.cpp:264-281 checkValueAgainstSpace. *)
Definition enum_in_space (pairs : list (str * Z)) (n : Z) : bool :=
  existsb (fun p => snd p =? n) pairs.

(** EnumParameterType.cpp:122-131 getMin, getMax through ParameterType.h:141-149 getMaxValue<int32_t>. *)
Definition enum_max (bytes : nat) : Z := 2 ^ (8 * Z.of_nat bytes - 1) - 1.
Definition enum_min (bytes : nat) : Z := - enum_max bytes - 1.

(** EnumParameterType.cpp:166-195 toBlackboard(int32_t). *)
Definition enum_of_int (bytes : nat) (pairs : list (str * Z)) (f : fmt) (v : Z) : outcome Z :=
  let user := if f_raw f then sign_extend bytes v else v in
  if negb (enum_in_space pairs user) then Err
  else if (user <? enum_min bytes) || (user >? enum_max bytes) then Err
  else Ok (to_ctype t_uint32 user).

(** EnumParameterType.cpp:95-120 toBlackboard(string). *)
Definition enum_of_str (bytes : nat) (pairs : list (str * Z)) (f : fmt) (s : str) : outcome Z :=
  match convertTo t_int32 s with
  | Some v => enum_of_int bytes pairs f v
  | None => match enum_numerical pairs s with
            | Some v => enum_of_int bytes pairs f v
            | None => Err
            end
  end.

(** EnumParameterType.cpp:133-163 fromBlackboard(string).  Simplification: when the number has no literal the
    caller's string is left as it was; all the callers pass an empty one, so the result is empty. *)
Definition enum_to_str (bytes : nat) (pairs : list (str * Z)) (f : fmt) (u : Z) : outcome str :=
  if f_raw f then
    if f_hex f then omap (print_hex (2 * bytes)) (make_encodable bytes u)
    else Ok (print_dec u)
  else match enum_literal pairs (sign_extend bytes (to_ctype t_int32 u)) with
       | Some l => Ok l
       | None => Ok []
       end.

(** ** Fixed point (FixedPointParameterType.cpp) *)

(** FixedPointParameterType.cpp:271-274 getUtilSizeInBits *)
Definition fix_util_bits (n m : nat) : Z := Z.of_nat n + Z.of_nat m + 1.

(** FixedPointParameterType.cpp:277-281 getRange.  The divisions by a power of two are exact in double. *)
Definition fix_max (n m : nat) : Q := inject_Z (2 ^ (Z.of_nat n + Z.of_nat m) - 1) / inject_Z (2 ^ Z.of_nat m).
Definition fix_min (n m : nat) : Q := - (inject_Z (2 ^ (Z.of_nat n + Z.of_nat m)) / inject_Z (2 ^ Z.of_nat m)).

(** FixedPointParameterType.cpp:332-339 checkValueAgainstRange *)
Definition fix_in_range (n m : nat) (d : dbl) : bool :=
  dbl_le_q d (fix_max n m) && q_le_dbl (fix_min n m) d.

(** FixedPointParameterType.cpp:342-352 doubleToBinaryQnm, for a value in range: the product by 2^m is exact, the left
    shift is the two's complement one. *)
Definition fix_encode (bytes n m : nat) (q : Q) : Z :=
  to_ctype t_int32 (Z.shiftl (to_ctype t_int32 (round_away (q * inject_Z (2 ^ Z.of_nat m))))
                             (8 * Z.of_nat bytes - fix_util_bits n m)).

(** FixedPointParameterType.cpp:354-359 binaryQnmToDouble: the integer [k] such that the result is k/2^m
    (exact in double). *)
Definition fix_unjustify (bytes n m : nat) (i : Z) : Z :=
  Z.shiftr i (8 * Z.of_nat bytes - fix_util_bits n m).

(** FixedPointParameterType.cpp:119-142 toBlackboard(string), 283-299 convertFromHexadecimal,
    301-311 convertFromDecimal, 313-329 convertFromQnm. *)
Definition fix_of_str (bytes n m : nat) (f : fmt) (s : str) : outcome Z :=
  let hexa := is_hexadecimal s in
  if hexa && negb (f_raw f) then Err
  else if f_raw f then
    if hexa then
      match convertTo t_uint32 s with
      | Some u => if is_encodable bytes u false
                  then Ok (to_ctype t_uint32 (sign_extend bytes (to_ctype t_int32 u))) else Err
      | None => Err
      end
    else
      match convertTo t_int32 s with
      | Some v => let u := to_ctype t_uint32 v in if is_encodable bytes u true then Ok u else Err
      | None => Err
      end
  else
    match convert_double s with
    | Some sm => let q := signed_q sm in
                 if fix_in_range n m (DFin q) then Ok (to_ctype t_uint32 (fix_encode bytes n m q)) else Err
    | None => Err
    end.

(** FixedPointParameterType.cpp:190-228 fromBlackboard(string).  std::fixed with setprecision(m) of k/2^m.
    (the assert on line 194 is a debug one, see [C10]). *)
Definition fix_to_str (bytes n m : nat) (f : fmt) (u : Z) : str :=
  if f_raw f then
    if f_hex f then print_hex (2 * bytes) u
    else print_dec (sign_extend bytes (to_ctype t_int32 u))
  else print_fixed_dyadic m (fix_unjustify bytes n m (sign_extend bytes (to_ctype t_int32 u))).

(** FixedPointParameterType.cpp:231-252 toBlackboard(double). *)
Definition fix_of_dbl (bytes n m : nat) (d : dbl) : outcome Z :=
  if fix_in_range n m d then
    match d with
    | DFin q => Ok (to_ctype t_uint32 (fix_encode bytes n m q))
    | DNegZero => Ok 0
    | _ => UB (* not reachable: the range check rejects them *)
    end
  else Err.

(** FixedPointParameterType.cpp:254-268 fromBlackboard(double). *)
Definition fix_to_dbl (bytes n m : nat) (u : Z) : dbl :=
  DFin (inject_Z (fix_unjustify bytes n m (sign_extend bytes (to_ctype t_int32 u))) / inject_Z (2 ^ Z.of_nat m)).

(** ** Floating point (FloatingPointParameterType.cpp) *)

(** FloatingPointParameterType.cpp:271-274 checkValueAgainstRange(float). *)
Definition float_in_range (fmin fmax q : Q) : bool := Qle_bool q fmax && Qle_bool fmin q.

(** FloatingPointParameterType.cpp:116-174 toBlackboard(string). *)
Definition float_of_str (fmin fmax : Q) (f : fmt) (s : str) : outcome Z :=
  if is_hexadecimal s && negb (f_raw f) then Err
  else if f_raw f then
    match convertTo t_uint32 s with
    | Some u => if f32_finite u && float_in_range fmin fmax (f32_value u) then Ok u else Err
    | None => Err
    end
  else
    match convert_float s with
    | Some sm => if float_in_range fmin fmax (signed_q sm) then Ok (f32_bits sm) else Err
    | None => Err
    end.

(** Lower case of a hexadecimal digit character. *)
Definition lower_hex (c : ascii) : ascii :=
  let z := bval c in if (65 <=? z) && (z <=? 70) then byte_of (z + 32) else c.

(** FloatingPointParameterType.cpp:205-231 fromBlackboard(string).  std::showbase adds "0x" to non-zero values and the
    fill characters of setw come before it. *)
Definition float_to_str (f : fmt) (u : Z) : str :=
  if f_raw f then
    if f_hex f then pad0 8 (if u =? 0 then lit "0" else lit "0x" ++ map lower_hex (print_base 16 u))
    else print_dec u
  else print_f32 u.

(** FloatingPointParameterType.cpp:234-247 toBlackboard(double), 259-269 checkValueAgainstRange(double). *)
Definition float_of_dbl (fmin fmax : Q) (d : dbl) : outcome Z :=
  match d with
  | DFin q =>
      if Qle_bool (- max32) q && Qle_bool q max32 then
        let r := round32 q in
        if float_in_range fmin fmax r then Ok (f32_bits (negb (Qle_bool 0 q), Qabs r)) else Err
      else Err
  | DNegZero => if float_in_range fmin fmax 0 then Ok (2 ^ 31) else Err
  | DInf _ | DNan => Err
  end.

(** ** Dispatch on the type *)

(** toBlackboard(const string&, uint32_t&, ctx) *)
Definition to_bb_str (t : ptype) (f : fmt) (s : str) : outcome Z :=
  match t with
  | PInt sg b lo hi => int_of_str sg b lo hi s
  | PBool => bool_of_str s
  | PEnum b ps => enum_of_str b ps f s
  | PFix b n m => fix_of_str b n m f s
  | PFloat a b => float_of_str a b f s
  end.

(** fromBlackboard(string&, const uint32_t&, ctx) *)
Definition from_bb_str (t : ptype) (f : fmt) (u : Z) : outcome str :=
  match t with
  | PInt sg b _ _ => Ok (int_to_str sg b f u)
  | PBool => Ok (bool_to_str f u)
  | PEnum b ps => enum_to_str b ps f u
  | PFix b n m => Ok (fix_to_str b n m f u)
  | PFloat _ _ => Ok (float_to_str f u)
  end.

(** User values of the handle API (ParameterHandle / ElementHandle). *)
Inductive uval := UBool (b : bool) | UUInt (v : Z) | UInt (v : Z) | UDbl (d : dbl).
Inductive ukind := KBool | KUInt | KInt | KDbl.

(** toBlackboard overloads for bool, uint32_t, int32_t, double; the overloads that a type does not define report an error
    (ParameterType.cpp:214-275). *)
Definition to_bb_val (t : ptype) (f : fmt) (v : uval) : outcome Z :=
  match t, v with
  | PInt _ _ lo hi, UUInt v => int_of_user t_uint32 lo hi v
  | PInt _ _ lo hi, UInt v => int_of_user t_int32 lo hi v
  | PBool, UBool b => Ok (if b then 1 else 0)
  | PBool, UUInt v => if v >? 1 then Err else Ok v
  | PEnum b ps, UInt v => enum_of_int b ps f v
  | PFix b n m, UDbl d => fix_of_dbl b n m d
  | PFloat a b, UDbl d => float_of_dbl a b d
  | _, _ => Err
  end.

(** fromBlackboard overloads (BaseIntegerParameterType.cpp:50-70, BooleanParameterType.cpp:96-125,
    EnumParameterType.cpp:197-208, FixedPointParameterType.cpp:254-268, FloatingPointParameterType.cpp:249-257). *)
Definition from_bb_val (t : ptype) (k : ukind) (u : Z) : outcome uval :=
  match t, k with
  | PInt _ _ _ _, KUInt => Ok (UUInt u)
  | PInt _ b _ _, KInt => Ok (UInt (sign_extend b (to_ctype t_int32 u)))
  | PBool, KBool => Ok (UBool (negb (u =? 0)))
  | PBool, KUInt => Ok (UUInt (if u =? 0 then 0 else 1))
  | PEnum b _, KInt => Ok (UInt (sign_extend b (to_ctype t_int32 u)))
  | PFix b n m, KDbl => Ok (UDbl (fix_to_dbl b n m u))
  | PFloat _ _, KDbl => Ok (UDbl (f32_to_dbl u))
  | _, _ => Err
  end.

(** getDefaultValue (ParameterType.cpp:123-126, IntegerParameterType.h:270, EnumParameterType.cpp:211-220). *)
Definition pt_default (t : ptype) : Z :=
  match t with
  | PInt _ _ lo _ => to_ctype t_uint32 lo
  | PEnum _ ((_, v) :: _) => to_ctype t_uint32 v
  | _ => 0
  end.

(** Types accepted at load time: IntegerParameterType.h:92-107, EnumParameterType.cpp:78-92,
    FixedPointParameterType.cpp:90-117, FloatingPointParameterType.cpp:88-111 and the sizes allowed by
    schemas/Parameter.xsd (8, 16, 32). *)
Definition pt_wf (t : ptype) : bool :=
  let size_ok b := ((b =? 1) || (b =? 2) || (b =? 4))%nat in
  match t with
  | PInt sg b lo hi => size_ok b && in_ctype (CType sg b) lo && in_ctype (CType sg b) hi && (lo <=? hi)
  | PBool => true
  | PEnum b ps => size_ok b && forallb (fun p => in_ctype t_int32 (snd p)) ps
  | PFix b n m => size_ok b && (fix_util_bits n m <=? 8 * Z.of_nat b)
  | PFloat a b => Qle_bool a b && Qle_bool (- max32) a && Qle_bool b max32
  end.

(** ** Access of a scalar parameter on a blackboard (Parameter.cpp) *)
From Verif Require Import BlackboardModel.

(** Parameter.cpp:172-189 doSet with a string.  [off]: offset relative to the blackboard. *)
Definition param_set_str (t : ptype) (f : fmt) (s : str) (off : nat) (bb : blackboard) : outcome blackboard :=
  do u <- to_bb_str t f s; bb_write_int bb u (pt_size t) off.

(** Parameter.cpp:192-205 doGet with a string. *)
Definition param_get_str (t : ptype) (f : fmt) (off : nat) (bb : blackboard) : outcome str :=
  do u <- bb_read_int bb (pt_size t) off; from_bb_str t f u.

(** Parameter.cpp:172-189 doSet with a bool, uint32_t, int32_t or double. *)
Definition param_set_val (t : ptype) (f : fmt) (v : uval) (off : nat) (bb : blackboard) : outcome blackboard :=
  do u <- to_bb_val t f v; bb_write_int bb u (pt_size t) off.

(** Parameter.cpp:192-205 doGet. *)
Definition param_get_val (t : ptype) (k : ukind) (off : nat) (bb : blackboard) : outcome uval :=
  do u <- bb_read_int bb (pt_size t) off; from_bb_val t k u.

(** Parameter.cpp:84-96 setDefaultValues. *)
Definition param_set_default (t : ptype) (off : nat) (bb : blackboard) : outcome blackboard :=
  bb_write_int bb (pt_default t) (pt_size t) off.
