(** Specification vocabulary for bit parameters. *)
From Coq Require Import List Arith ZArith Bool Ascii String.
From Verif Require Import Base TextSpec RealModel ParamTypeModel ParamTypeSpec BlackboardModel BitModel.
Import ListNotations.
Open Scope Z_scope.

(** The effect of setting the field to [v]: same size, no byte outside the block changes, and in the word of the block
    exactly the bits from [bt_pos] to [bt_pos + bt_size - 1] take the bits of [v]. *)
Definition bit_effect (t : bittype) (v : Z) (off : nat) (bb bb' : blackboard) : Prop :=
  List.length bb' = List.length bb
  /\ (forall i, (i < off \/ off + bt_block t <= i)%nat -> nth_error bb' i = nth_error bb i)
  /\ exists w w', bb_read_int bb (bt_block t) off = Ok w /\ bb_read_int bb' (bt_block t) off = Ok w'
      /\ forall i, 0 <= i ->
          Z.testbit w' i = if (bt_pos t <=? i) && (i <? bt_pos t + bt_size t)
                           then Z.testbit v (i - bt_pos t) else Z.testbit w i.

(** The field holds [v], by arithmetic on the word of the block and by each getter of the API. *)
Definition bit_reads (t : bittype) (v : Z) (off : nat) (bb' : blackboard) : Prop :=
  (exists w, bb_read_int bb' (bt_block t) off = Ok w /\ (w / 2 ^ bt_pos t) mod 2 ^ bt_size t = v)
  /\ (forall f, exists s, bitparam_get_str t f off bb' = Ok s /\ plain_number s v
        /\ (if f_raw f && f_hex f then hex_prefixed s else dec_numeral s v))
  /\ (v < 2 ^ 32 -> bitparam_get_val t KUInt off bb' = Ok (UUInt v)).

