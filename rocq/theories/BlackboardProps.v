(** C01: parameter memory. *)
From Coq Require Import List Arith ZArith Bool Ascii String Lia.
From Verif Require Import Base BlackboardModel BlackboardProofs.
Import ListNotations.

(** Bytes: a write that fits succeeds, keeps the size, is read back, and changes no other byte. *)
Theorem C01_bytes_write_read_frame : forall bb d off,
  off + List.length d <= List.length bb ->
  exists bb', bb_write_bytes bb d off = Ok bb'
    /\ bb_write bb d off = Ok bb'
    /\ List.length bb' = List.length bb
    /\ bb_read_bytes bb' (List.length d) off = Ok d
    /\ bb_read bb' (List.length d) off = Ok d
    /\ (forall i, i < off \/ off + List.length d <= i -> nth_error bb' i = nth_error bb i).
Proof. exact bb_write_contract. Qed.
Print Assumptions C01_bytes_write_read_frame.

Example C01_bytes_nonvacuous :
  2 + List.length (lit "ab") <= List.length (lit "0123456789").
Proof. simpl; lia. Qed.

(** Integers: same, for any value representable on [n] bytes. *)
Theorem C01_integer_write_read_frame : forall bb z n off,
  off + n <= List.length bb -> (0 <= z < 256 ^ Z.of_nat n)%Z ->
  exists bb', bb_write_int bb z n off = Ok bb'
    /\ List.length bb' = List.length bb
    /\ bb_read_int bb' n off = Ok z
    /\ (forall i, i < off \/ off + n <= i -> nth_error bb' i = nth_error bb i).
Proof. exact bb_write_int_contract. Qed.
Print Assumptions C01_integer_write_read_frame.

Example C01_integer_nonvacuous :
  3 + 4 <= List.length (lit "0123456789") /\ (0 <= 3735928559 < 256 ^ Z.of_nat 4)%Z.
Proof. split; [simpl|]; lia. Qed.

(** Strings without NUL: same. *)
Theorem C01_string_write_read_frame : forall bb s off,
  off + List.length s + 1 <= List.length bb -> ~ In zero s ->
  exists bb', bb_write_string bb s off = Ok bb'
    /\ List.length bb' = List.length bb
    /\ bb_read_string bb' off = Ok s
    /\ (forall i, i < off \/ off + List.length s + 1 <= i -> nth_error bb' i = nth_error bb i).
Proof. exact bb_write_string_contract. Qed.
Print Assumptions C01_string_write_read_frame.

Example C01_string_nonvacuous :
  1 + List.length (lit "abc") + 1 <= List.length (lit "0123456789") /\ ~ In zero (lit "abc").
Proof. split; [simpl; lia|]. intros H; simpl in H; intuition discriminate. Qed.

(** An access that does not fit terminates the process: no blackboard is produced. *)
Theorem C01_out_of_range_aborts : forall bb off n,
  List.length bb < off + n ->
  (forall d, List.length d = n -> bb_write bb d off = Abort /\ bb_write_bytes bb d off = Abort)
  /\ (forall z, bb_write_int bb z n off = Abort)
  /\ bb_read bb n off = Abort /\ bb_read_bytes bb n off = Abort /\ bb_read_int bb n off = Abort
  /\ (forall s, List.length s + 1 = n -> bb_write_string bb s off = Abort)
  /\ (forall other, List.length other = n ->
         bb_restore_from bb other off = Abort /\ bb_save_to bb other off = Abort).
Proof. exact bb_out_of_range. Qed.
Print Assumptions C01_out_of_range_aborts.

Example C01_out_of_range_nonvacuous : List.length (lit "0123456789") < 8 + 3.
Proof. simpl; lia. Qed.

(** The size_t computation of the check agrees with the mathematical one as long as
    [offset + size] does not wrap around. *)
Theorem C01_access_check_no_wrap : forall bb off n,
  (Z.of_nat off + Z.of_nat n < 2 ^ 64)%Z ->
  bb_access_ok_64 bb (Z.of_nat off) (Z.of_nat n) = bb_access_ok bb off n.
Proof. exact bb_access_no_wrap. Qed.
Print Assumptions C01_access_check_no_wrap.

Example C01_access_check_no_wrap_nonvacuous : (Z.of_nat 1000 + Z.of_nat 8 < 2 ^ 64)%Z.
Proof. lia. Qed.

(** Without that bound the check can be defeated by the wrap-around: an offset past the end of the
    blackboard passes. *)
Theorem C01_access_check_wrap_refuted :
  exists bb off n, (Z.of_nat (List.length bb) < off)%Z /\ (0 < n)%Z
    /\ (0 <= off < 2 ^ 64)%Z /\ bb_access_ok_64 bb off n = true.
Proof.
  exists (lit "0123456789"), (2 ^ 64 - 1)%Z, 1%Z. repeat split; vm_compute; auto; discriminate.
Qed.
Print Assumptions C01_access_check_wrap_refuted.
