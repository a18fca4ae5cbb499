(** C08, C09: bit parameters. *)
From Coq Require Import List Arith ZArith QArith Bool Ascii String Lia.
From Verif Require Import Base BaseProofs TextModel TextSpec TextProofs RealModel ParamTypeModel ParamTypeSpec
  BlackboardModel BlackboardProofs IntProofs BitModel BitSpec BitProofs.
Import ListNotations.
Open Scope Z_scope.

(** ** C08 *)

(** Text that is a number: accepted exactly up to the maximum, only the field changes, and it reads back.  (For a 64 bit
    field without a smaller maximum, numbers beyond 2^64 are outside the statement: see [C09_saturates_refuted].) *)
Theorem C08_set_text : forall t s v off bb, bit_wf t = true -> (off + bt_block t <= List.length bb)%nat ->
  plain_number s v ->
  (v <= bt_max t -> exists bb', bitparam_set_str t s off bb = Ok bb'
      /\ bit_effect t v off bb bb' /\ bit_reads t v off bb')
  /\ (bt_max t < v -> (bt_max t = 2 ^ 64 - 1 -> v < 2 ^ 64) -> bitparam_set_str t s off bb = Err).
Proof. exact bit_set_text. Qed.
Print Assumptions C08_set_text.

Definition ex_bit := BitType 5 6 40 2.

Example C08_set_text_nonvacuous :
  bit_wf ex_bit = true /\ (1 + bt_block ex_bit <= List.length (lit "abcd"))%nat
  /\ plain_number (lit "37") 37 /\ 37 <= bt_max ex_bit
  /\ bitparam_set_str ex_bit (lit "37") 1 (lit "abcd") = Ok ["a"; byte_of 162; byte_of 100; "d"]%char
  /\ bitparam_set_str ex_bit (lit "41") 1 (lit "abcd") = Err.
Proof.
  split; [reflexivity|]. split; [simpl; lia|]. split.
  { left. exists [3; 7]. split; [repeat constructor; unfold dec_digit; cbn; lia|]. split; [reflexivity|].
    right. exists 3, [7]. split; [auto|lia]. }
  split; [vm_compute; discriminate|]. split; vm_compute; reflexivity.
Qed.

(** Whatever the text, an accepted set writes some value within the maximum and touches nothing else. *)
Theorem C08_set_any_text : forall t s off bb bb', bit_wf t = true -> (off + bt_block t <= List.length bb)%nat ->
  bitparam_set_str t s off bb = Ok bb' ->
  exists v, 0 <= v <= bt_max t /\ bit_effect t v off bb bb' /\ bit_reads t v off bb'.
Proof. exact bit_set_any_text. Qed.
Print Assumptions C08_set_any_text.

(** Unsigned integer handle. *)
Theorem C08_handle : forall t v off bb, bit_wf t = true -> (off + bt_block t <= List.length bb)%nat ->
  0 <= v < 2 ^ 32 ->
  (v <= bt_max t -> exists bb', bitparam_set_val t (UUInt v) off bb = Ok bb'
      /\ bit_effect t v off bb bb' /\ bit_reads t v off bb')
  /\ (bt_max t < v -> bitparam_set_val t (UUInt v) off bb = Err).
Proof. exact bit_handle. Qed.
Print Assumptions C08_handle.

(** Boolean handle: only for one bit fields. *)
Theorem C08_boolean_handle : forall t (w : bool) off bb, bit_wf t = true -> (off + bt_block t <= List.length bb)%nat ->
  (bt_size t = 1 -> (if w then 1 else 0) <= bt_max t ->
     exists bb', bitparam_set_val t (UBool w) off bb = Ok bb'
      /\ bit_effect t (if w then 1 else 0) off bb bb'
      /\ bitparam_get_val t KBool off bb' = Ok (UBool w))
  /\ (bt_size t <> 1 -> bitparam_set_val t (UBool w) off bb = Err /\ bitparam_get_val t KBool off bb = Err).
Proof. exact bit_bool_handle. Qed.
Print Assumptions C08_boolean_handle.

Example C08_boolean_handle_nonvacuous : bit_wf (BitType 7 1 1 1) = true /\ bt_size (BitType 7 1 1 1) = 1
  /\ bitparam_set_val (BitType 7 1 1 1) (UBool true) 0 [byte_of 5] = Ok [byte_of 133].
Proof. repeat split; vm_compute; reflexivity. Qed.

(** Copying a field from another image of the block (used when configurations are saved and restored). *)
Theorem C08_merge : forall t origin new i, bit_wf t = true ->
  0 <= origin < 2 ^ (8 * Z.of_nat (bt_block t)) -> 0 <= i ->
  Z.testbit (bit_merge t origin new) i
  = if (bt_pos t <=? i) && (i <? bt_pos t + bt_size t) then Z.testbit new i else Z.testbit origin i.
Proof. exact bit_merge_testbit. Qed.
Print Assumptions C08_merge.

Example C08_merge_nonvacuous : bit_wf ex_bit = true /\ bit_merge ex_bit 65535 0 = 65535 - 2016.
Proof. split; vm_compute; reflexivity. Qed.

(** False in general: the unsigned getter drops the bits of a field beyond the 32nd. *)
Theorem C08_handle_truncates_refuted : exists t s v off bb bb',
  bit_wf t = true /\ plain_number s v /\ bitparam_set_str t s off bb = Ok bb'
  /\ bit_effect t v off bb bb' /\ bitparam_get_val t KUInt off bb' = Ok (UUInt 0) /\ v <> 0.
Proof.
  pose (t := BitType 0 40 (2 ^ 40 - 1) 8).
  assert (plain_number (lit "0x100000000") (2 ^ 32)) as Hs.
  { right. exists (lit "100000000"), [1;0;0;0;0;0;0;0;0]. split; [reflexivity|]. split; [discriminate|].
    split; [repeat (apply Forall2_cons; [left; unfold dec_digit; cbn; lia|]); constructor|reflexivity]. }
  destruct (bit_set_text t (lit "0x100000000") (2 ^ 32) 0 (repeat zero 8)) as [K _];
    [reflexivity|simpl; lia|exact Hs|].
  destruct K as [bb' [K1 [K2 _]]]; [vm_compute; discriminate|].
  exists t, (lit "0x100000000"), (2 ^ 32), 0%nat, (repeat zero 8), bb'.
  split; [reflexivity|]. split; [exact Hs|]. split; [exact K1|]. split; [exact K2|]. split; [|lia].
  vm_compute in K1. injection K1 as <-. vm_compute. reflexivity.
Qed.
Print Assumptions C08_handle_truncates_refuted.

(** ** C09: false; what holds of number texts is [C08_set_text]. *)

(** Text that is no number at all is accepted as 0. *)
Theorem C09_garbage_refuted : exists t s off bb bb',
  bit_wf t = true /\ (forall v, ~ plain_number s v) /\ (forall v, ~ int_text s v)
  /\ bitparam_set_str t s off bb = Ok bb' /\ bb' <> bb.
Proof.
  exists (BitType 0 8 255 1), (lit "loud"), 0%nat, [byte_of 7], [zero].
  split; [reflexivity|]. split.
  { intros v [[ds [HF _]]|[r [ds [E _]]]]; [|discriminate].
    inversion HF as [|? ? ? ? [H1 H2] _]; subst. change (bval "l"%char) with 108 in H2. lia. }
  split; [|split; [vm_compute; reflexivity|vm_compute; discriminate]].
  intros v H. inversion H as [s ds _ HF| | | ]; subst.
  inversion HF as [|? ? ? ? [H1 H2] _]; subst. change (bval "l"%char) with 108 in H2. lia.
Qed.
Print Assumptions C09_garbage_refuted.

(** Trailing characters are ignored, a leading zero means octal, and a minus sign wraps around. *)
Theorem C09_misread_refuted : exists t, bit_wf t = true
  /\ bitparam_set_str t (lit "12abc") 0 [zero] = Ok [byte_of 12]
  /\ bitparam_set_str t (lit "010") 0 [zero] = Ok [byte_of 8]
  /\ bitparam_set_str t (lit "-18446744073709551615") 0 [zero] = Ok [byte_of 1].
Proof. exists (BitType 0 8 255 1). repeat split; vm_compute; reflexivity. Qed.
Print Assumptions C09_misread_refuted.

(** Numbers that do not fit 64 bits become 2^64-1, which a 64 bit field accepts. *)
Theorem C09_saturates_refuted : exists t s v,
  bit_wf t = true /\ plain_number s v /\ bt_max t < v
  /\ bitparam_set_str t s 0 (repeat zero 8) = Ok (repeat (byte_of 255) 8).
Proof.
  exists (BitType 0 64 (2 ^ 64 - 1) 8), (lit "0x10000000000000000"), (2 ^ 64).
  split; [reflexivity|]. split.
  { right. exists (lit "10000000000000000"), (1 :: repeat 0 16). split; [reflexivity|]. split; [discriminate|].
    split; [repeat (apply Forall2_cons; [left; unfold dec_digit; cbn; lia|]); constructor|reflexivity]. }
  split; [vm_compute; reflexivity|vm_compute; reflexivity].
Qed.
Print Assumptions C09_saturates_refuted.

(** The part of C09 that holds: a number text is never misread, and no text whatsoever can put the field above its maximum
    or disturb its neighbours. *)
Theorem C09_numbers_partial : forall t s off bb bb', bit_wf t = true -> (off + bt_block t <= List.length bb)%nat ->
  bitparam_set_str t s off bb = Ok bb' ->
  (forall v, plain_number s v -> v < 2 ^ 64 -> v <= bt_max t /\ bit_reads t v off bb')
  /\ exists v, 0 <= v <= bt_max t /\ bit_reads t v off bb'.
Proof. exact bit_numbers. Qed.
Print Assumptions C09_numbers_partial.

Example C09_numbers_nonvacuous : bit_wf ex_bit = true
  /\ bitparam_set_str ex_bit (lit "0x11") 0 [zero; zero] = Ok [byte_of 32; byte_of 2].
Proof. split; vm_compute; reflexivity. Qed.
