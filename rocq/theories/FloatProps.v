(** C55: floating point parameters. *)
From Coq Require Import List Arith ZArith QArith Qabs Qpower Bool Ascii String Lia.
From Verif Require Import Base BaseProofs TextModel TextSpec TextProofs RealModel RealSpec RealProofs ParamTypeModel
  ParamTypeSpec BlackboardModel BlackboardProofs IntProofs FixProofs FloatProofs.
Import ListNotations.
Open Scope Z_scope.

(** A double of the float range is accepted when the nearest single precision number lies within the declared bounds;
    that number is what is read back; nothing else changes. [dbl_is d q]: the double [d] is the number [q] (a zero may be
    negative). *)
Theorem C55_set_double : forall a b f q off bb, (off + 4 <= List.length bb)%nat ->
  (- max32 <= q <= max32)%Q -> (a <= round32 q /\ round32 q <= b)%Q ->
  exists bb' d, param_set_val (PFloat a b) f (UDbl (DFin q)) off bb = Ok bb'
    /\ param_get_val (PFloat a b) KDbl off bb' = Ok (UDbl d) /\ dbl_is d (round32 q)
    /\ List.length bb' = List.length bb
    /\ (forall i, (i < off \/ off + 4 <= i)%nat -> nth_error bb' i = nth_error bb i).
Proof. exact float_set_double. Qed.
Print Assumptions C55_set_double.

Example C55_set_double_nonvacuous :
  (- max32 <= (-1) # 10 <= max32)%Q
  /\ ((-1) # 5 <= round32 ((-1) # 10) /\ round32 ((-1) # 10) <= 7)%Q
  /\ param_set_val (PFloat ((-1) # 5) 7) (Fmt false false) (UDbl (DFin ((-1) # 10))) 1 (lit "abcdef")
     = Ok ("a"%char :: [byte_of 205; byte_of 204; byte_of 204; byte_of 189] ++ lit "f").
Proof. split; [split; vm_compute; discriminate|]. split; [split; vm_compute; discriminate|vm_compute; reflexivity]. Qed.

(** [round32] is the IEEE 754 conversion: the nearest single precision number. *)
Theorem C55_float_is_nearest : forall q, nearest_number 24 (-149) q (round32 q).
Proof. intros q. apply round_fp_is_nearest. lia. Qed.
Print Assumptions C55_float_is_nearest.

(** Any other double, an infinity or a NaN included, is refused. *)
Theorem C55_refuse_double : forall a b f d off bb,
  match d with
  | DFin q => ~ ((- max32 <= q <= max32) /\ (a <= round32 q /\ round32 q <= b))%Q
  | DNegZero => ~ (a <= 0 /\ 0 <= b)%Q
  | _ => True
  end -> param_set_val (PFloat a b) f (UDbl d) off bb = Err.
Proof. exact float_refuse_double. Qed.
Print Assumptions C55_refuse_double.

Example C55_refuse_double_nonvacuous : ~ ((- max32 <= 8 <= max32) /\ (-1 <= round32 8 /\ round32 8 <= 7))%Q.
Proof. intros [_ [_ H]]. vm_compute in H. apply H. reflexivity. Qed.

(** Reading a finite number within the bounds through a handle and writing it back changes nothing, the sign of zero
    included. *)
Theorem C55_write_back_double : forall a b f off bb u, bb_read_int bb 4 off = Ok u ->
  f32_finite u = true -> (a <= f32_value u /\ f32_value u <= b)%Q ->
  exists d, param_get_val (PFloat a b) KDbl off bb = Ok (UDbl d) /\ dbl_is d (f32_value u)
    /\ param_set_val (PFloat a b) f (UDbl d) off bb = Ok bb.
Proof. exact float_write_back_double. Qed.
Print Assumptions C55_write_back_double.

Example C55_write_back_double_nonvacuous :
  let bb := [byte_of 0; byte_of 0; byte_of 0; byte_of 128] in
  bb_read_int bb 4 0 = Ok (2 ^ 31) /\ f32_finite (2 ^ 31) = true /\ (-1 <= f32_value (2 ^ 31) /\ f32_value (2 ^ 31) <= 1)%Q
  /\ param_get_val (PFloat (-1) 1) KDbl 0 bb = Ok (UDbl DNegZero).
Proof.
  split; [vm_compute; reflexivity|]. split; [reflexivity|]. split; [split; vm_compute; discriminate|vm_compute; reflexivity].
Qed.

(** Text, real value space: the number stored is the single precision number nearest to the number written. *)
Theorem C55_set_text : forall a b h s (neg : bool) q off bb, (off + 4 <= List.length bb)%nat -> real_text neg s q ->
  (round32 q <= max32)%Q ->
  let r := if neg then (- round32 q)%Q else round32 q in
  (a <= r /\ r <= b)%Q ->
  exists bb' u, param_set_str (PFloat a b) (Fmt false h) s off bb = Ok bb'
    /\ bb_read_int bb' 4 off = Ok u /\ f32_finite u = true /\ (f32_value u == r)%Q
    /\ List.length bb' = List.length bb
    /\ (forall i, (i < off \/ off + 4 <= i)%nat -> nth_error bb' i = nth_error bb i).
Proof. exact float_set_text. Qed.
Print Assumptions C55_set_text.

(** Every other text is refused. *)
Theorem C55_refuse_text : forall a b h s off bb, ~ In formfeed s ->
  (forall (neg : bool) q, real_text neg s q -> (round32 q <= max32)%Q ->
     ~ (a <= (if neg then - round32 q else round32 q) /\ (if neg then - round32 q else round32 q) <= b)%Q) ->
  param_set_str (PFloat a b) (Fmt false h) s off bb = Err.
Proof. exact float_refuse_text. Qed.
Print Assumptions C55_refuse_text.

Example C55_text_nonvacuous :
  param_set_str (PFloat (-1) 2) (Fmt false false) (lit "1.5e0") 0 (lit "abcd") = Ok [byte_of 0; byte_of 0; byte_of 192; byte_of 63]
  /\ param_set_str (PFloat (-1) 2) (Fmt false false) (lit "-0") 0 (lit "abcd") = Ok [byte_of 0; byte_of 0; byte_of 0; byte_of 128]
  /\ param_set_str (PFloat (-1) 2) (Fmt false false) (lit "2.1") 0 (lit "abcd") = Err
  /\ param_set_str (PFloat (-1) 2) (Fmt false false) (lit "nan") 0 (lit "abcd") = Err
  /\ param_set_str (PFloat (-1) 2) (Fmt false false) (lit "0x1") 0 (lit "abcd") = Err.
Proof. repeat split; vm_compute; reflexivity. Qed.

(** Raw value space: accepted exactly when the text denotes the memory word of a finite number within the bounds. *)
Theorem C55_raw_text : forall a b h s off bb, (off + 4 <= List.length bb)%nat -> ~ In formfeed s ->
  (forall u, int_text s u -> ~ In "-"%char s -> 0 <= u < 2 ^ 32 -> f32_finite u = true ->
     (a <= f32_value u /\ f32_value u <= b)%Q ->
     exists bb', param_set_str (PFloat a b) (Fmt true h) s off bb = Ok bb' /\ bb_read_int bb' 4 off = Ok u
       /\ List.length bb' = List.length bb
       /\ (forall i, (i < off \/ off + 4 <= i)%nat -> nth_error bb' i = nth_error bb i))
  /\ ((forall u, int_text s u -> ~ In "-"%char s -> 0 <= u < 2 ^ 32 -> f32_finite u = true ->
         ~ (a <= f32_value u /\ f32_value u <= b)%Q) ->
      param_set_str (PFloat a b) (Fmt true h) s off bb = Err).
Proof. exact float_raw_text. Qed.
Print Assumptions C55_raw_text.

Example C55_raw_text_nonvacuous :
  param_set_str (PFloat (-1) 2) (Fmt true false) (lit "0x3fc00000") 0 (lit "abcd") = Ok [byte_of 0; byte_of 0; byte_of 192; byte_of 63]
  /\ param_set_str (PFloat (-1) 2) (Fmt true false) (lit "0x7f800000") 0 (lit "abcd") = Err
  /\ param_set_str (PFloat (-1) 2) (Fmt true false) (lit "0x40800000") 0 (lit "abcd") = Err.
Proof. repeat split; vm_compute; reflexivity. Qed.

(** Raw value space, decimal output: the text read can be written back unchanged.
    Missing: hexadecimal output, see the first refutation below. *)
Theorem C55_raw_write_back_partial : forall a b off bb u, bb_read_int bb 4 off = Ok u ->
  f32_finite u = true -> (a <= f32_value u /\ f32_value u <= b)%Q ->
  exists s, param_get_str (PFloat a b) (Fmt true false) off bb = Ok s
    /\ param_set_str (PFloat a b) (Fmt true false) s off bb = Ok bb.
Proof. exact float_raw_write_back. Qed.
Print Assumptions C55_raw_write_back_partial.

(** With hexadecimal output the padding zeros precede the "0x" prefix: the value of a small number cannot be written
    back. *)
Theorem C55_raw_hex_write_back_refuted : exists a b bb s, param_get_str (PFloat a b) (Fmt true true) 0 bb = Ok s
  /\ (exists u, bb_read_int bb 4 0 = Ok u /\ f32_finite u = true /\ (a <= f32_value u /\ f32_value u <= b)%Q)
  /\ param_set_str (PFloat a b) (Fmt true true) s 0 bb = Err.
Proof.
  exists (-1)%Q, 1%Q, [byte_of 1; byte_of 0; byte_of 0; byte_of 0], (lit "000000x1"). split; [vm_compute; reflexivity|].
  split; [exists 1; split; [vm_compute; reflexivity|split; [reflexivity|split; vm_compute; discriminate]]|vm_compute; reflexivity].
Qed.
Print Assumptions C55_raw_hex_write_back_refuted.

(** The text of the real value space has six significant digits: writing it back may change the value. *)
Theorem C55_text_write_back_refuted : exists a b bb s bb', param_get_str (PFloat a b) (Fmt false false) 0 bb = Ok s
  /\ param_set_str (PFloat a b) (Fmt false false) s 0 bb = Ok bb' /\ bb' <> bb.
Proof.
  exists (-1)%Q, 2%Q, [byte_of 1; byte_of 0; byte_of 128; byte_of 63], (lit "1"),
    [byte_of 0; byte_of 0; byte_of 128; byte_of 63].
  split; [vm_compute; reflexivity|]. split; [vm_compute; reflexivity|vm_compute; discriminate].
Qed.
Print Assumptions C55_text_write_back_refuted.

(** The upper bound itself may print as a larger number, which is then refused. *)
Theorem C55_text_write_back_rejected_refuted : exists a b bb s, param_get_str (PFloat a b) (Fmt false false) 0 bb = Ok s
  /\ (exists u, bb_read_int bb 4 0 = Ok u /\ f32_finite u = true /\ (a <= f32_value u /\ f32_value u <= b)%Q)
  /\ param_set_str (PFloat a b) (Fmt false false) s 0 bb = Err.
Proof.
  exists (-1)%Q, (f32_value 1065353215), [byte_of 255; byte_of 255; byte_of 127; byte_of 63], (lit "1").
  split; [vm_compute; reflexivity|].
  split; [|vm_compute; reflexivity].
  exists 1065353215; split; [vm_compute; reflexivity|split; [reflexivity|split; vm_compute; discriminate]].
Qed.
Print Assumptions C55_text_write_back_rejected_refuted.

(** A memory word written through another path (a parent block, a back synchronisation) may not be a number: it reads
    "nan", which cannot be written back. *)
Theorem C55_nan_refuted : exists a b bb, param_get_str (PFloat a b) (Fmt false false) 0 bb = Ok (lit "nan")
  /\ param_set_str (PFloat a b) (Fmt false false) (lit "nan") 0 bb = Err.
Proof.
  exists (-1)%Q, 2%Q, [byte_of 1; byte_of 0; byte_of 192; byte_of 127]. split; vm_compute; reflexivity.
Qed.
Print Assumptions C55_nan_refuted.
