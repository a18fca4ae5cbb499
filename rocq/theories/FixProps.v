(** C10: fixed point parameters. *)
From Coq Require Import List Arith ZArith QArith Qabs Qpower Bool Ascii String Lia.
From Verif Require Import Base BaseProofs TextModel TextSpec TextProofs RealModel RealSpec RealProofs ParamTypeModel
  ParamTypeSpec BlackboardModel BlackboardProofs IntProofs FixProofs.
Import ListNotations.
Open Scope Z_scope.

(** A double in the range [-2^n, 2^n - 2^-m] is accepted; the number stored, and read back, is k/2^m within half a
    quantum; it sits in the upper [n + m + 1] bits of the parameter, the other bits being zero; nothing else changes. *)
Theorem C10_set_double : forall b n m f q off bb, pt_wf (PFix b n m) = true -> (off + b <= List.length bb)%nat ->
  (q_value m (- 2 ^ (Z.of_nat n + Z.of_nat m)) <= q /\ q <= q_value m (2 ^ (Z.of_nat n + Z.of_nat m) - 1))%Q ->
  exists bb' k r, param_set_val (PFix b n m) f (UDbl (DFin q)) off bb = Ok bb'
    /\ q_range n m k /\ (Qabs (q_value m k - q) <= (1 # 2) * q_value m 1)%Q
    /\ param_get_val (PFix b n m) KDbl off bb' = Ok (UDbl (DFin r)) /\ (r == q_value m k)%Q
    /\ bb_read_int bb' b off = Ok (word_of b (k * 2 ^ (8 * Z.of_nat b - (Z.of_nat n + Z.of_nat m + 1))))
    /\ List.length bb' = List.length bb
    /\ (forall i, (i < off \/ off + b <= i)%nat -> nth_error bb' i = nth_error bb i).
Proof. exact fix_set_get. Qed.
Print Assumptions C10_set_double.

Example C10_set_double_nonvacuous :
  pt_wf (PFix 2 3 4) = true
  /\ (q_value 4 (- 2 ^ (3 + 4)) <= (-3) # 7 /\ (-3) # 7 <= q_value 4 (2 ^ (3 + 4) - 1))%Q
  /\ omap (param_get_val (PFix 2 3 4) KDbl 1) (param_set_val (PFix 2 3 4) (Fmt false false) (UDbl (DFin ((-3) # 7))) 1 (lit "abcd"))
     = Ok (Ok (UDbl (DFin (inject_Z (-7) / inject_Z 16)))).
Proof. split; [reflexivity|]. split; [split; vm_compute; discriminate|vm_compute; reflexivity]. Qed.

(** Any other double is refused. *)
Theorem C10_refuse_double : forall b n m f d off bb,
  (forall q, d = DFin q ->
    ~ (q_value m (- 2 ^ (Z.of_nat n + Z.of_nat m)) <= q /\ q <= q_value m (2 ^ (Z.of_nat n + Z.of_nat m) - 1))%Q) ->
  d <> DNegZero -> param_set_val (PFix b n m) f (UDbl d) off bb = Err.
Proof. exact fix_set_refused. Qed.
Print Assumptions C10_refuse_double.

Example C10_refuse_double_nonvacuous : ~ (8 <= q_value 4 (2 ^ (Z.of_nat 3 + Z.of_nat 4) - 1))%Q.
Proof. vm_compute. intros H. apply H. reflexivity. Qed.

(** Reading through a handle then writing back the double: nothing changes, provided that the unused low bits are zero.
    Missing: unused bits set, see the refutation. *)
Theorem C10_write_back_double_partial : forall b n m f off bb k, pt_wf (PFix b n m) = true -> (off + b <= List.length bb)%nat ->
  q_range n m k ->
  bb_read_int bb b off = Ok (word_of b (k * 2 ^ (8 * Z.of_nat b - (Z.of_nat n + Z.of_nat m + 1)))) ->
  exists r, param_get_val (PFix b n m) KDbl off bb = Ok (UDbl (DFin r)) /\ (r == q_value m k)%Q
    /\ param_set_val (PFix b n m) f (UDbl (DFin r)) off bb = Ok bb.
Proof. exact fix_write_back. Qed.
Print Assumptions C10_write_back_double_partial.

Example C10_write_back_nonvacuous : q_range 3 4 (-7)
  /\ bb_read_int ["a"%char; zero; byte_of 249] 2 1 = Ok (word_of 2 (-7 * 2 ^ (16 - 8))).
Proof. split; [unfold q_range; simpl; lia|vm_compute; reflexivity]. Qed.

(** Unused bits set (by a raw access, bytes, or the hardware) are lost by a read and write back in real value space. *)
Theorem C10_write_back_refuted : exists b n m off bb s bb',
  pt_wf (PFix b n m) = true /\ param_get_str (PFix b n m) (Fmt false false) off bb = Ok s
  /\ param_set_str (PFix b n m) (Fmt false false) s off bb = Ok bb' /\ bb' <> bb
  /\ exists raw, param_set_str (PFix b n m) (Fmt true false) raw off bb' = Ok bb.
Proof.
  exists 1%nat, 2%nat, 3%nat, 0%nat, [byte_of 7], (lit "0.125"), [byte_of 4].
  split; [reflexivity|]. split; [vm_compute; reflexivity|]. split; [vm_compute; reflexivity|].
  split; [discriminate|]. exists (lit "7"). vm_compute. reflexivity.
Qed.
Print Assumptions C10_write_back_refuted.

(** As text, in real value space: a decimal text is accepted when the double nearest to the number it denotes is in
    range; the number stored is within half a quantum of that double, hence of the number denoted up to the double
    rounding. *)
Theorem C10_set_text : forall b n m h s neg q off bb, pt_wf (PFix b n m) = true -> (off + b <= List.length bb)%nat ->
  real_text neg s q ->
  let d := if neg then (- round64 q)%Q else round64 q in
  (q_value m (- 2 ^ (Z.of_nat n + Z.of_nat m)) <= d /\ d <= q_value m (2 ^ (Z.of_nat n + Z.of_nat m) - 1))%Q ->
  exists bb' k, param_set_str (PFix b n m) (Fmt false h) s off bb = Ok bb'
    /\ q_range n m k
    /\ (Qabs (q_value m k - (if neg then - q else q))
        <= (1 # 2) * q_value m 1 + (Qabs q * Qpower 2 (-53) + Qpower 2 (-1075)))%Q
    /\ bb_read_int bb' b off = Ok (word_of b (k * 2 ^ (8 * Z.of_nat b - (Z.of_nat n + Z.of_nat m + 1))))
    /\ List.length bb' = List.length bb
    /\ (forall i, (i < off \/ off + b <= i)%nat -> nth_error bb' i = nth_error bb i).
Proof.
  intros b n m h s neg q off bb Hwf Hoff Ht d Hd.
  destruct (fix_text_set b n m h s neg q off bb Hwf Hoff Ht Hd) as [bb' [k [H1 [H2 [H3 [H4 H5]]]]]].
  exists bb', k. split; auto. split; auto. split; auto. apply fix_text_error. auto.
Qed.
Print Assumptions C10_set_text.

Example C10_set_text_nonvacuous :
  real_text true (lit "-1.5e0") (15 # 10)
  /\ param_set_str (PFix 1 2 3) (Fmt false false) (lit "-1.5e0") 0 (lit "x") = Ok [byte_of 208].
Proof.
  split; [|vm_compute; reflexivity].
  exists (lit "-"), (lit "1"), [1], (lit ".5"), (lit "5"), [5], (lit "e0"), 0.
  split; [reflexivity|]. split; [reflexivity|].
  split; [repeat constructor; unfold dec_digit; cbn; lia|]. split; [repeat constructor; unfold dec_digit; cbn; lia|].
  split; [left; reflexivity|]. split; [discriminate|]. split; [|reflexivity].
  right. exists "e"%char, [], false, (lit "0"), [0]. split; [auto|]. split; [reflexivity|]. split; [left; auto|].
  split; [repeat constructor; unfold dec_digit; cbn; lia|]. split; [discriminate|reflexivity].
Qed.

Theorem C10_refuse_text : forall b n m h s off bb, ~ In formfeed s ->
  (forall neg q, real_text neg s q ->
     let d := if neg then (- round64 q)%Q else round64 q in
     ~ (q_value m (- 2 ^ (Z.of_nat n + Z.of_nat m)) <= d /\ d <= q_value m (2 ^ (Z.of_nat n + Z.of_nat m) - 1))%Q) ->
  param_set_str (PFix b n m) (Fmt false h) s off bb = Err.
Proof. exact fix_text_refused. Qed.
Print Assumptions C10_refuse_text.

Example C10_refuse_text_nonvacuous :
  param_set_str (PFix 1 2 3) (Fmt false false) (lit "4") 0 (lit "x") = Err
  /\ param_set_str (PFix 1 2 3) (Fmt false false) (lit "1.5.2") 0 (lit "x") = Err
  /\ param_set_str (PFix 1 2 3) (Fmt false false) (lit "3.9") 0 (lit "x") = Err
  /\ param_set_str (PFix 1 2 3) (Fmt false false) (lit "3.875") 0 (lit "x") = Ok [byte_of 124].
Proof. repeat split; vm_compute; reflexivity. Qed.

(** [round64] is the IEEE 754 conversion: the nearest double. *)
Theorem C10_double_is_nearest : forall q, nearest_number 53 (-1074) q (round64 q).
Proof. intros q. apply round_fp_is_nearest. lia. Qed.
Print Assumptions C10_double_is_nearest.

(** The text read denotes the stored number exactly, and writing it back changes nothing (unused bits zero). *)
Theorem C10_write_back_text_partial : forall b n m h off bb k, pt_wf (PFix b n m) = true -> (off + b <= List.length bb)%nat ->
  q_range n m k ->
  bb_read_int bb b off = Ok (word_of b (k * 2 ^ (8 * Z.of_nat b - (Z.of_nat n + Z.of_nat m + 1)))) ->
  exists s, param_get_str (PFix b n m) (Fmt false h) off bb = Ok s
    /\ denotes_real s (q_value m k)
    /\ param_set_str (PFix b n m) (Fmt false h) s off bb = Ok bb.
Proof. exact fix_text_write_back. Qed.
Print Assumptions C10_write_back_text_partial.

(** Raw value space: accepted exactly when the text denotes a memory word of the parameter (signed decimal or
    hexadecimal), which is stored. *)
Theorem C10_raw_text : forall b n m h s off bb, pt_wf (PFix b n m) = true -> ~ In formfeed s -> (off + b <= List.length bb)%nat ->
  (forall v, int_denotes true b s v -> width_lo true b <= v <= width_hi true b ->
     exists bb', param_set_str (PFix b n m) (Fmt true h) s off bb = Ok bb'
       /\ bb_read_int bb' b off = Ok (word_of b v) /\ List.length bb' = List.length bb
       /\ (forall i, (i < off \/ off + b <= i)%nat -> nth_error bb' i = nth_error bb i))
  /\ ((forall v, int_denotes true b s v -> ~ (width_lo true b <= v <= width_hi true b)) ->
      param_set_str (PFix b n m) (Fmt true h) s off bb = Err).
Proof.
  intros b n m h s off bb Hwf Hff Hoff. apply pt_wf_fix in Hwf. destruct Hwf as [Hb _].
  destruct (fix_raw_of_str b n m h s Hb Hff) as [F1 F2]. unfold param_set_str. cbn [to_bb_str pt_size]. split.
  - intros v Hd Hv. destruct (F1 v Hd Hv) as [u [-> Hu]]. cbn [obind].
    destruct (write_read_word bb u b off Hoff) as [bb' [W1 [W2 [W3 W4]]]]. rewrite Hu in W3. eauto 10.
  - intros H. rewrite F2; auto.
Qed.
Print Assumptions C10_raw_text.

Example C10_raw_text_nonvacuous :
  param_set_str (PFix 2 3 4) (Fmt true false) (lit "-2") 0 (lit "xy") = Ok [byte_of 254; byte_of 255]
  /\ param_set_str (PFix 2 3 4) (Fmt true true) (lit "0xFFFE") 0 (lit "xy") = Ok [byte_of 254; byte_of 255]
  /\ param_set_str (PFix 2 3 4) (Fmt true true) (lit "65534") 0 (lit "xy") = Err.
Proof. repeat split; vm_compute; reflexivity. Qed.

(** Raw value space: any memory content can be read and written back. *)
Theorem C10_raw_write_back : forall b n m h off bb, pt_wf (PFix b n m) = true -> (off + b <= List.length bb)%nat ->
  exists s, param_get_str (PFix b n m) (Fmt true h) off bb = Ok s
    /\ param_set_str (PFix b n m) (Fmt true h) s off bb = Ok bb.
Proof. intros b n m h off bb Hwf. apply pt_wf_fix in Hwf. apply fix_raw_write_back. tauto. Qed.
Print Assumptions C10_raw_write_back.
