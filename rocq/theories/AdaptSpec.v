(** Specification vocabulary for adaptations, independent of the model functions. *)
From Coq Require Import List Arith ZArith QArith Qabs Bool Lia.
From Verif Require Import Base TextModel RealModel RealSpec ParamTypeSpec BlackboardModel.
Local Open Scope Z_scope.

(** The [bytes] byte parameter at [off] has the value [v]. *)
Definition has_value (bytes off : nat) (bb : blackboard) (v : Z) : Prop := bb_read_int bb bytes off = Ok (word_of bytes v).

(** The memory [bb'] is [bb] but for the parameter. *)
Definition only_changed (bytes off : nat) (bb bb' : blackboard) : Prop :=
  List.length bb' = List.length bb /\ forall i, (i < off \/ off + bytes <= i)%nat -> nth_error bb' i = nth_error bb i.

(** A slope whose products and quotients with 64 bit integers neither overflow nor underflow. *)
Definition slope_ok (q : Q) : Prop := (Qpower 2 (-400) <= Qabs q <= Qpower 2 400)%Q.

(** [z] is [y] without its fractional part. *)
Definition truncated (y : Q) (z : Z) : Prop :=
  (Qabs (inject_Z z) <= Qabs y /\ Qabs (y - inject_Z z) < 1 /\ 0 <= y * inject_Z z)%Q.

(** The number of a finite double. *)
Definition number_of (d : dbl) (q : Q) : Prop := d = DFin q \/ (d = DNegZero /\ q = 0%Q).

Definition is_double (q : Q) : Prop := format_number 53 (-1074) q.
