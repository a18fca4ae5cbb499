(** Model of the access to an integer parameter with a double, through its adaptation (parameter/ParameterAdaptation.cpp,
    LinearParameterAdaptation.cpp, LogarithmicParameterAdaptation.cpp, IntegerParameterType.h). *)
From Coq Require Import List Arith ZArith QArith Qround Qabs Bool Ascii String Lia.
From Verif Require Import Base TextModel RealModel ParamTypeModel BlackboardModel XmlModel DeclModel.
Import ListNotations.
Local Open Scope Z_scope.

(** ** Double arithmetic (IEEE 754, round to nearest even) *)

Definition d_zero (neg : bool) : dbl := if neg then DNegZero else DFin 0.

(** The double nearest to a non-zero rational; [neg]: the sign of a result rounded to zero. *)
Definition d_round (neg : bool) (q : Q) : dbl :=
  let r := round64 q in
  if Qeq_bool r 0 then d_zero neg else if Qle_bool (Qabs r) max64 then DFin r else DInf neg.

(** Sign of a double that is not a NaN. *)
Definition d_neg (d : dbl) : bool :=
  match d with DFin q => negb (Qle_bool 0 q) | DNegZero => true | DInf neg => neg | DNan => false end.

Definition d_val (d : dbl) : option Q := match d with DFin q => Some q | DNegZero => Some 0%Q | _ => None end.

Definition d_mul (a b : dbl) : dbl :=
  let neg := xorb (d_neg a) (d_neg b) in
  match a, b with
  | DNan, _ | _, DNan => DNan
  | DInf _, DInf _ => DInf neg
  | DInf _, _ => match d_val b with Some q => if Qeq_bool q 0 then DNan else DInf neg | None => DNan end
  | _, DInf _ => match d_val a with Some q => if Qeq_bool q 0 then DNan else DInf neg | None => DNan end
  | _, _ => match d_val a, d_val b with Some p, Some q => d_round neg (p * q) | _, _ => DNan end
  end.

Definition d_div (a b : dbl) : dbl :=
  let neg := xorb (d_neg a) (d_neg b) in
  match a, b with
  | DNan, _ | _, DNan => DNan
  | DInf _, DInf _ => DNan
  | DInf _, _ => DInf neg
  | _, DInf _ => d_zero neg
  | _, _ => match d_val a, d_val b with
            | Some p, Some q => if Qeq_bool q 0 then (if Qeq_bool p 0 then DNan else DInf neg) else d_round neg (p / q)
            | _, _ => DNan
            end
  end.

(** Conversion to int64_t: truncation, undefined when the result does not fit. *)
Definition q_trunc (q : Q) : Z := if Qle_bool 0 q then Qfloor q else - Qfloor (- q).
Definition fits64 (z : Z) : bool := (- 2 ^ 63 <=? z) && (z <=? 2 ^ 63 - 1).
Definition d_to_int64 (d : dbl) : outcome Z :=
  match d_val d with
  | Some q => if fits64 (q_trunc q) then Ok (q_trunc q) else UB
  | None => UB
  end.

(** ** Adaptations *)

(** ParameterAdaptation.cpp:76-84. *)
Definition base_from (off : Z) (d : dbl) : outcome Z :=
  do i <- d_to_int64 d; if fits64 (i + off) then Ok (i + off) else UB.
Definition base_to (off : Z) (i : Z) : dbl := DFin (round64 (inject_Z (i - off))).

(** LinearParameterAdaptation.cpp:84-93.  Simplification: a slope numerator of minus zero is read as zero. *)
Definition linear_from (off : Z) (num den : Q) (d : dbl) : outcome Z := base_from off (d_div (d_mul d (DFin num)) (DFin den)).
Definition linear_to (off : Z) (num den : Q) (i : Z) : dbl := d_div (d_mul (base_to off i) (DFin den)) (DFin num).

(** The logarithm and the exponential of the C library. *)
Record libm := Libm { lm_log : dbl -> dbl; lm_exp : dbl -> dbl }.

(** LogarithmicParameterAdaptation.cpp:80-90. *)
Definition adapt_from (l : libm) (a : adaptation) (d : dbl) : outcome Z :=
  match a with
  | ALinear off num den => linear_from off num den d
  | ALog off num den b fl =>
      do i <- linear_from off num den (d_div (lm_log l d) (lm_log l (DFin b)));
      do f <- d_to_int64 (match fl with Some q => DFin q | None => DInf true end);
      Ok (Z.max i f)
  end.
Definition adapt_to (l : libm) (a : adaptation) (i : Z) : dbl :=
  match a with
  | ALinear off num den => linear_to off num den i
  | ALog off num den b _ => lm_exp l (d_mul (linear_to off num den i) (lm_log l (DFin b)))
  end.

(** ** Access *)

(** IntegerParameterType.h:172-195 toBlackboard(double), BaseIntegerParameterType.cpp:72-75: the first adaptation. *)
Definition int_of_dbl (l : libm) (lo hi : Z) (ads : list adaptation) (d : dbl) : outcome Z :=
  match ads with
  | [] => Err
  | a :: _ => do i <- adapt_from l a d; if (i <? lo) || (hi <? i) then Err else Ok (to_ctype t_uint32 i)
  end.

(** IntegerParameterType.h:236-265 fromBlackboard(double). *)
Definition int_to_dbl (l : libm) (sg : bool) (bytes : nat) (ads : list adaptation) (u : Z) : outcome dbl :=
  match ads with
  | [] => Err
  | a :: _ => Ok (adapt_to l a (if sg then sign_extend bytes (to_ctype t_int32 u) else u))
  end.

(** Parameter.cpp:172-205 doSet, doGet with a double. *)
Definition int_set_dbl (l : libm) (t : ptype) (ads : list adaptation) (d : dbl) (off : nat) (bb : blackboard) : outcome blackboard :=
  match t with
  | PInt _ b lo hi => do u <- int_of_dbl l lo hi ads d; bb_write_int bb u b off
  | _ => Err
  end.
Definition int_get_dbl (l : libm) (t : ptype) (ads : list adaptation) (off : nat) (bb : blackboard) : outcome dbl :=
  match t with
  | PInt sg b _ _ => do u <- bb_read_int bb b off; int_to_dbl l sg b ads u
  | _ => Err
  end.
