(** C38 (tokenizer) and C39 (number parsing). *)
From Coq Require Import List Arith ZArith Bool Ascii String Lia.
From Verif Require Import Base TextModel TextSpec TextProofs.
Import ListNotations.

(** Merging mode: the result is exactly the list of maximal delimiter-free pieces. *)
Theorem C38_split_merge : forall ds s ts, split s ds true = ts <-> runs ds s ts.
Proof. exact split_merge_spec. Qed.
Print Assumptions C38_split_merge.

(** Non-merging mode, non-empty text: exactly the pieces between consecutive delimiters. *)
Theorem C38_split_fields : forall ds s fs, s <> [] -> (split s ds false = fs <-> fields ds s fs).
Proof. exact split_nomerge_spec. Qed.
Print Assumptions C38_split_fields.

Example C38_split_fields_nonvacuous :
  split (lit ",a,,b") (lit ",") false = [lit ""; lit "a"; lit ""; lit "b"]
  /\ split (lit "  a  bc ") (lit " ") true = [lit "a"; lit "bc"].
Proof. split; reflexivity. Qed.

(** Join then split, merging mode: any non-empty separator made of delimiters. *)
Theorem C38_join_split_merge : forall ds sep l,
  sep <> [] -> (forall c, In c sep -> In c ds) ->
  Forall (fun t => t <> [] /\ (forall c, In c t -> ~ In c ds)) l ->
  split (join sep l) ds true = l.
Proof. exact split_join_merge_gen. Qed.
Print Assumptions C38_join_split_merge.

(** Join then split, non-merging mode: items may be empty (the list [[""]] excepted: it joins to the empty
    text, which splits to no item). *)
Theorem C38_join_split_fields : forall ds d l,
  In d ds -> l <> [] -> l <> [[]] -> Forall (fun t => forall c, In c t -> ~ In c ds) l ->
  split (join [d] l) ds false = l.
Proof. exact split_join_nomerge. Qed.
Print Assumptions C38_join_split_fields.

Example C38_join_split_nonvacuous :
  Forall (fun t => t <> [] /\ (forall c, In c t -> ~ In c (lit ", "))) [lit "ab"; lit "c"]
  /\ Forall (fun t => forall c, In c t -> ~ In c (lit "/")) [lit "ab"; lit ""; lit "c"].
Proof.
  split; repeat constructor; try discriminate; intros c H1 H2; simpl in *;
    intuition (subst; discriminate).
Qed.

(** C39: a text without form feed is accepted exactly when it is an integer literal (optional sign and decimal
    digits, or 0x and hexadecimal digits) whose value is representable in the target type; the result is
    that value; no minus sign for unsigned types. *)
Theorem C39_convert_int_exact : forall t s v, ~ In "012"%char s ->
  (convertTo t s = Some v <->
   int_text s v /\ (ct_lo t <= v <= ct_hi t)%Z /\ (ct_signed t = false -> ~ In "-"%char s)).
Proof. exact convertTo_spec. Qed.
Print Assumptions C39_convert_int_exact.

(** The literal notation is unambiguous. *)
Theorem C39_int_text_functional : forall s v1 v2, int_text s v1 -> int_text s v2 -> v1 = v2.
Proof. exact int_text_unique. Qed.
Print Assumptions C39_int_text_functional.

Example C39_nonvacuous :
  convertTo t_int16 (lit "-32768") = Some (-32768)%Z
  /\ convertTo t_int16 (lit "32768") = None
  /\ convertTo t_uint8 (lit "0xFf") = Some 255%Z
  /\ convertTo t_uint8 (lit "256") = None
  /\ convertTo t_int32 (lit "12a") = None.
Proof. repeat split; reflexivity. Qed.

(** What is printed is parsed back. *)
Theorem C39_print_parse : forall t z, (ct_lo t <= z <= ct_hi t)%Z ->
  convertTo t (print_dec z) = Some z
  /\ (forall w, (0 <= z)%Z -> convertTo t (print_hex w z) = Some z).
Proof. exact (fun t z H => conj (convertTo_print_dec t z H) (fun w H0 => convertTo_print_hex t w z H0 H)). Qed.
Print Assumptions C39_print_parse.

(** Finding: a leading form feed is not rejected by the white-space check and is skipped by the stream, so that
    a text which is not an integer literal is accepted. *)
Theorem C39_formfeed_refuted :
  exists t s v, convertTo t s = Some v /\ ~ (exists v', int_text s v').
Proof.
  exists t_int32, ("012"%char :: lit "12"), 12%Z. split; [reflexivity|].
  intros [v' H]. apply int_text_no_formfeed in H. apply H. left; reflexivity.
Qed.
Print Assumptions C39_formfeed_refuted.
