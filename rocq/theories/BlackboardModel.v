(** Model of the parameter blackboard (parameter/ParameterBlackboard.cpp). *)
From Coq Require Import List Arith ZArith Bool Ascii String Lia.
From Verif Require Import Base.
Import ListNotations.

(** [mBlackboard], a std::vector<uint8_t> (ParameterBlackboard.h). *)
Notation blackboard := (list ascii) (only parsing).

(** ParameterBlackboard.cpp:36-39 setSize: std::vector::resize; new bytes are zero. *)
Definition bb_set_size (bb : blackboard) (size : nat) : blackboard :=
  firstn size bb ++ repeat zero (size - List.length bb).

(** ParameterBlackboard.cpp:41-44 getSize. *)
Definition bb_size (bb : blackboard) : nat := List.length bb.

(** ParameterBlackboard.cpp:134-139 assertValidAccess, with the size_t addition of the code
    ([offset + size] computed modulo 2^64). *)
Definition bb_access_ok_64 (bb : blackboard) (offset size : Z) : bool :=
  ((offset + size) mod 2 ^ 64 <=? Z.of_nat (List.length bb))%Z.

(** The same check on mathematical integers.  Simplification: used by all the accessors
    below; it agrees with the size_t one whenever [offset + size < 2^64]
    (theorem [C01_access_check_no_wrap]). *)
Definition bb_access_ok (bb : blackboard) (offset size : nat) : bool :=
  offset + size <=? bb_size bb.

(** ParameterBlackboard.cpp:47-56 writeInteger.  The source object is given as its memory
    representation [d] (the caller's integer, little endian, cut to [size] bytes). *)
Definition bb_write (bb : blackboard) (d : list byte) (offset : nat) : outcome blackboard :=
  if bb_access_ok bb offset (List.length d) then Ok (overwrite bb offset d) else Abort.

(** ParameterBlackboard.cpp:58-67 readInteger: the [size] bytes copied to the destination. *)
Definition bb_read (bb : blackboard) (size offset : nat) : outcome (list byte) :=
  if bb_access_ok bb offset size then Ok (slice bb offset size) else Abort.

(** writeInteger applied to an integer object of at least [size] bytes holding [z]
    (little-endian host). *)
Definition bb_write_int (bb : blackboard) (z : Z) (size offset : nat) : outcome blackboard :=
  bb_write bb (le_encode size z) offset.

(** readInteger into a zero-initialised integer object of at least [size] bytes. *)
Definition bb_read_int (bb : blackboard) (size offset : nat) : outcome Z :=
  omap le_decode (bb_read bb size offset).

(** ParameterBlackboard.cpp:69-75 writeString. *)
Definition bb_write_string (bb : blackboard) (s : str) (offset : nat) : outcome blackboard :=
  if bb_access_ok bb offset (List.length s + 1)
  then Ok (overwrite bb offset (s ++ [zero])) else Abort.

(** C string starting at the beginning of [l]: characters up to the first NUL; [None]
    when there is no NUL (the read runs past the end of the buffer). *)
Fixpoint c_string (l : list byte) : option str :=
  match l with
  | [] => None
  | b :: l' => if char_eqb b zero then Some []
               else match c_string l' with Some s => Some (b :: s) | None => None end
  end.

(** ParameterBlackboard.cpp:77-86 readString: only the first byte is checked, then the
    memory is read up to a NUL, whatever the extent of the string parameter; past the end of the vector
    this is undefined behaviour. *)
Definition bb_read_string (bb : blackboard) (offset : nat) : outcome str :=
  if bb_access_ok bb offset 1
  then match c_string (skipn offset bb) with Some s => Ok s | None => UB end
  else Abort.

(** ParameterBlackboard.cpp:98-103 writeBytes. *)
Definition bb_write_bytes (bb : blackboard) (bytes : list byte) (offset : nat) : outcome blackboard :=
  if bb_access_ok bb offset (List.length bytes) then Ok (overwrite bb offset bytes) else Abort.

(** ParameterBlackboard.cpp:105-110 readBytes: the size is the one of the destination vector. *)
Definition bb_read_bytes (bb : blackboard) (n : nat) (offset : nat) : outcome (list byte) :=
  if bb_access_ok bb offset n then Ok (slice bb offset n) else Abort.

(** ParameterBlackboard.cpp:120-125 restoreFrom: the whole of [from] is copied at [offset]. *)
Definition bb_restore_from (bb from : blackboard) (offset : nat) : outcome blackboard :=
  if bb_access_ok bb offset (bb_size from) then Ok (overwrite bb offset from) else Abort.

(** ParameterBlackboard.cpp:127-132 saveTo: [bb_size to] bytes from [offset] replace all of [to].
    Returns the new content of [to]. *)
Definition bb_save_to (bb to : blackboard) (offset : nat) : outcome blackboard :=
  if bb_access_ok bb offset (bb_size to) then Ok (slice bb offset (bb_size to)) else Abort.
