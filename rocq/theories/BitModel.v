(** Model of bit parameters (parameter/BitParameterType.cpp, parameter/BitParameter.cpp). *)
From Coq Require Import List Arith ZArith Bool Ascii String Lia.
From Verif Require Import Base TextModel RealModel ParamTypeModel BlackboardModel.
Import ListNotations.
Open Scope Z_scope.

(** BitParameterType.h: _bitPos, _uiBitSize, _uiMax, and the size in bytes of the parent block. *)
Record bittype := BitType { bt_pos : Z; bt_size : Z; bt_max : Z; bt_block : nat }.

(** BitParameterType.cpp:217-220 getMaxEncodableValue: (uint64_t)-1 >> (64 - size), undefined for size 0. *)
Definition bit_max_encodable (t : bittype) : Z := Z.shiftr (2 ^ 64 - 1) (64 - bt_size t).

(** BitParameterType.cpp:74-119 fromXml: types accepted at load time.  [1 <= bt_size] comes from schemas/Parameter.xsd
    (xs:positiveInteger). *)
Definition bit_wf (t : bittype) : bool :=
  (((bt_block t =? 1) || (bt_block t =? 2) || (bt_block t =? 4) || (bt_block t =? 8))%nat
   && (0 <=? bt_pos t) && (1 <=? bt_size t) && (bt_pos t + bt_size t <=? 8 * Z.of_nat (bt_block t))
   && (0 <=? bt_max t) && (bt_max t <=? bit_max_encodable t)).

(** BitParameterType.cpp:223-226 getMask (uint64_t). *)
Definition bit_mask (t : bittype) : Z := to_ctype t_uint64 (Z.shiftl (bit_max_encodable t) (bt_pos t)).

(** ~mask on uint64_t. *)
Definition not64 (x : Z) : Z := 2 ^ 64 - 1 - x.

(** BitParameterType.cpp:122-154 toBlackboard(string) / 177-191 toBlackboard(uint64_t), after the conversion of
    the text: range check and read-modify-write of the block value [data]. *)
Definition bit_to_bb (t : bittype) (v data : Z) : outcome Z :=
  if v >? bt_max t then Err
  else Ok (Z.lor (Z.land data (not64 (bit_mask t))) (to_ctype t_uint64 (Z.shiftl v (bt_pos t)))).

(** BitParameterType.cpp:126 the text is converted by strtoull without any check. *)
Definition bit_to_bb_str (t : bittype) (s : str) (data : Z) : outcome Z := bit_to_bb t (strtoull0 s) data.

(** BitParameterType.cpp:159, 196: extraction of the field. *)
Definition bit_field (t : bittype) (data : Z) : Z := Z.shiftr (Z.land data (bit_mask t)) (bt_pos t).

(** BitParameterType.cpp:156-173 fromBlackboard(string). *)
Definition bit_from_bb_str (t : bittype) (f : fmt) (data : Z) : str :=
  let v := bit_field t data in
  if f_raw f && f_hex f then lit "0x" ++ print_base 16 v else print_dec v.

(** BitParameterType.cpp:193-197 fromBlackboard(uint32_t): truncation to 32 bits. *)
Definition bit_from_bb_uint (t : bittype) (data : Z) : Z := to_ctype t_uint32 (bit_field t data).

(** BitParameterType.cpp:200-203 merge. *)
Definition bit_merge (t : bittype) (origin new : Z) : Z :=
  Z.lor (Z.land origin (not64 (bit_mask t))) (Z.land new (bit_mask t)).

(** BitParameter.cpp:141-162 doSet with a string: read the block, modify, write. *)
Definition bitparam_set_str (t : bittype) (s : str) (off : nat) (bb : blackboard) : outcome blackboard :=
  do data <- bb_read_int bb (bt_block t) off;
  do u <- bit_to_bb_str t s data;
  bb_write_int bb u (bt_block t) off.

(** BitParameter.cpp:165-179 doGet with a string. *)
Definition bitparam_get_str (t : bittype) (f : fmt) (off : nat) (bb : blackboard) : outcome str :=
  do data <- bb_read_int bb (bt_block t) off; Ok (bit_from_bb_str t f data).

(** BitParameter.cpp:80-138 access(bool), access(uint32_t), setting: a boolean access needs a one bit field. *)
Definition bitparam_set_val (t : bittype) (v : uval) (off : nat) (bb : blackboard) : outcome blackboard :=
  match v with
  | UBool w => if bt_size t =? 1 then
                 do data <- bb_read_int bb (bt_block t) off;
                 do u <- bit_to_bb t (if w then 1 else 0) data;
                 bb_write_int bb u (bt_block t) off
               else Err
  | UUInt v => do data <- bb_read_int bb (bt_block t) off;
               do u <- bit_to_bb t v data;
               bb_write_int bb u (bt_block t) off
  | _ => Err
  end.

(** BitParameter.cpp:80-138, getting. *)
Definition bitparam_get_val (t : bittype) (k : ukind) (off : nat) (bb : blackboard) : outcome uval :=
  match k with
  | KBool => if bt_size t =? 1 then
               do data <- bb_read_int bb (bt_block t) off; Ok (UBool (negb (bit_from_bb_uint t data =? 0)))
             else Err
  | KUInt => do data <- bb_read_int bb (bt_block t) off; Ok (UUInt (bit_from_bb_uint t data))
  | _ => Err
  end.
