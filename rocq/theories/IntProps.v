(** C04, C05, C06, C07: integer, enumeration and boolean parameters. *)
From Coq Require Import List Arith ZArith QArith Bool Ascii String Lia.
From Verif Require Import Base BaseProofs TextModel TextSpec TextProofs RealModel ParamTypeModel ParamTypeSpec
  BlackboardModel BlackboardProofs IntProofs.
Import ListNotations.
Open Scope Z_scope.

(** ** C04: integer parameters as text *)

(** A text is accepted exactly when it denotes a number between the declared bounds; the number is then read back, in
    canonical decimal (or as the hexadecimal memory word), and no other byte changes. *)
Theorem C04_integer_text : forall sg b lo hi f s off bb,
  pt_wf (PInt sg b lo hi) = true -> (off + b <= List.length bb)%nat -> ~ In formfeed s ->
  (forall v, int_denotes sg b s v -> lo <= v <= hi ->
     exists bb', param_set_str (PInt sg b lo hi) f s off bb = Ok bb'
       /\ List.length bb' = List.length bb
       /\ (forall i, (i < off \/ off + b <= i)%nat -> nth_error bb' i = nth_error bb i)
       /\ forall f', exists t, param_get_str (PInt sg b lo hi) f' off bb' = Ok t
            /\ if f_raw f' && f_hex f' then canon_hex b t (word_of b v) else canon_dec t v)
  /\ ((forall v, int_denotes sg b s v -> ~ (lo <= v <= hi)) ->
      param_set_str (PInt sg b lo hi) f s off bb = Err).
Proof. exact int_set_get. Qed.
Print Assumptions C04_integer_text.

Example C04_integer_text_nonvacuous :
  pt_wf (PInt true 2 (-100) 100) = true /\ (1 + 2 <= List.length (lit "abcd"))%nat
  /\ ~ In formfeed (lit "-42")
  /\ int_denotes true 2 (lit "-42") (-42) /\ -100 <= -42 <= 100
  /\ int_denotes true 2 (lit "0xFFFE") (-2)
  /\ omap (fun bb => param_get_str (PInt true 2 (-100) 100) (Fmt true true) 1 bb)
       (param_set_str (PInt true 2 (-100) 100) (Fmt false false) (lit "-42") 1 (lit "abcd"))
     = Ok (Ok (lit "0xFFD6")).
Proof.
  split; [reflexivity|]. split; [simpl; lia|]. split; [intros H; simpl in H; intuition discriminate|].
  split; [|split; [lia|split; [|vm_compute; reflexivity]]].
  - apply den_dec; [intros [r H]; discriminate| |congruence].
    apply (it_minus (lit "42") [4; 2]); [discriminate|]. repeat constructor; unfold dec_digit; cbn; lia.
  - change (-2) with (if true then two_compl 2 65534 else 65534). apply den_hex; [exists (lit "FFFE"); reflexivity| |vm_compute; intuition discriminate].
    apply (it_hex (lit "FFFE") [15; 15; 15; 14]); [discriminate|].
    repeat (apply Forall2_cons; [unfold hex_digit; right; cbn; lia|]). constructor.
Qed.

(** Reading an in-range parameter and writing back the text, in any value space and format, leaves the memory as it was. *)
Theorem C04_integer_write_back : forall sg b lo hi f off bb v,
  pt_wf (PInt sg b lo hi) = true -> (off + b <= List.length bb)%nat ->
  bb_read_int bb b off = Ok (word_of b v) -> lo <= v <= hi ->
  exists t, param_get_str (PInt sg b lo hi) f off bb = Ok t
    /\ param_set_str (PInt sg b lo hi) f t off bb = Ok bb.
Proof. exact int_write_back. Qed.
Print Assumptions C04_integer_write_back.

Example C04_integer_write_back_nonvacuous :
  pt_wf (PInt true 1 (-100) 100) = true
  /\ bb_read_int [zero; byte_of 214] 1 1 = Ok (word_of 1 (-42)) /\ -100 <= -42 <= 100.
Proof. split; [reflexivity|split; [vm_compute; reflexivity|lia]]. Qed.

(** ** C05: integer parameters through handles *)

(** [setter]: signed (setAsSignedInteger) or unsigned (setAsInteger) access.  Missing part of the full statement: the
    cases excluded by the fourth hypothesis, in which it is false (refutations below). *)
Theorem C05_integer_handle_partial : forall sg b lo hi f (setter : bool) v off bb,
  pt_wf (PInt sg b lo hi) = true -> (off + b <= List.length bb)%nat ->
  (if setter then -2147483648 <= v <= 2147483647 else 0 <= v <= 4294967295) ->
  (if setter then hi <= width_hi true b else 0 <= lo) ->
  let value := fun v => if setter then UInt v else UUInt v in
  let kind := if setter then KInt else KUInt in
  (lo <= v <= hi ->
     exists bb', param_set_val (PInt sg b lo hi) f (value v) off bb = Ok bb'
       /\ List.length bb' = List.length bb
       /\ (forall i, (i < off \/ off + b <= i)%nat -> nth_error bb' i = nth_error bb i)
       /\ param_get_val (PInt sg b lo hi) kind off bb' = Ok (value v))
  /\ (~ (lo <= v <= hi) -> param_set_val (PInt sg b lo hi) f (value v) off bb = Err).
Proof. exact int_handle. Qed.
Print Assumptions C05_integer_handle_partial.

Example C05_integer_handle_nonvacuous :
  pt_wf (PInt true 2 (-300) 300) = true /\ (0 + 2 <= List.length (lit "ab"))%nat
  /\ 300 <= width_hi true 2 /\ -300 <= -7 <= 300.
Proof. repeat split; try (vm_compute; discriminate); try reflexivity; simpl; lia. Qed.

(** False in general: a valid value is refused by the unsigned setter when the lower bound is negative. *)
Theorem C05_unsigned_setter_refuted : exists sg b lo hi f v off bb,
  pt_wf (PInt sg b lo hi) = true /\ (off + b <= List.length bb)%nat /\ 0 <= v <= 4294967295
  /\ lo <= v <= hi /\ param_set_val (PInt sg b lo hi) f (UUInt v) off bb = Err.
Proof.
  exists true, 1%nat, (-100), 100, (Fmt false false), 5, 0%nat, (lit "a").
  repeat split; try (vm_compute; congruence); simpl; lia.
Qed.
Print Assumptions C05_unsigned_setter_refuted.

(** ... and an out of range one is accepted when both bounds are negative. *)
Theorem C05_unsigned_setter_accepts_refuted : exists sg b lo hi f v off bb bb',
  pt_wf (PInt sg b lo hi) = true /\ (off + b <= List.length bb)%nat /\ 0 <= v <= 4294967295
  /\ ~ (lo <= v <= hi) /\ param_set_val (PInt sg b lo hi) f (UUInt v) off bb = Ok bb'.
Proof.
  exists true, 1%nat, (-100), (-1), (Fmt false false), 4294967290, 0%nat, (lit "a"), [byte_of 250].
  repeat split; try (vm_compute; congruence); simpl; lia.
Qed.
Print Assumptions C05_unsigned_setter_accepts_refuted.

(** False in general: the signed setter refuses valid values of a 32 bit unsigned parameter whose maximum exceeds
    INT_MAX. *)
Theorem C05_signed_setter_refuted : exists sg b lo hi f v off bb,
  pt_wf (PInt sg b lo hi) = true /\ (off + b <= List.length bb)%nat /\ -2147483648 <= v <= 2147483647
  /\ lo <= v <= hi /\ param_set_val (PInt sg b lo hi) f (UInt v) off bb = Err.
Proof.
  exists false, 4%nat, 0, 4294967295, (Fmt false false), 5, 0%nat, (lit "abcd").
  repeat split; try (vm_compute; congruence); simpl; lia.
Qed.
Print Assumptions C05_signed_setter_refuted.

(** False in general: the signed getter sign-extends unsigned parameters. *)
Theorem C05_signed_getter_refuted : exists sg b lo hi f v w off bb bb',
  pt_wf (PInt sg b lo hi) = true /\ (off + b <= List.length bb)%nat /\ -2147483648 <= v <= 2147483647
  /\ lo <= v <= hi /\ param_set_val (PInt sg b lo hi) f (UInt v) off bb = Ok bb'
  /\ param_get_val (PInt sg b lo hi) KInt off bb' = Ok (UInt w) /\ w <> v.
Proof.
  exists false, 1%nat, 0, 255, (Fmt false false), 200, (-56), 0%nat, (lit "a"), [byte_of 200].
  repeat split; try (vm_compute; congruence); simpl; lia.
Qed.
Print Assumptions C05_signed_getter_refuted.

(** ** C06: enumerations *)

(** Whatever is accepted is a declared value: its literal, or its number (in raw space, the memory word of a number), is
    then what the parameter reads as. *)
Theorem C06_enum_accepts_only_declared : forall b ps f s off bb bb',
  pt_wf (PEnum b ps) = true -> (off + b <= List.length bb)%nat -> ~ In formfeed s ->
  param_set_str (PEnum b ps) f s off bb = Ok bb' ->
  exists l n, In (l, n) ps
    /\ ((f_raw f = false /\ (int_text s n \/ s = l))
        \/ (f_raw f = true /\ exists v, n = two_compl b (word_of b v) /\ (int_text s v \/ In (s, v) ps)))
    /\ param_get_val (PEnum b ps) KInt off bb' = Ok (UInt n)
    /\ (exists l', In (l', n) ps /\ forall h, param_get_str (PEnum b ps) (Fmt false h) off bb' = Ok l')
    /\ List.length bb' = List.length bb
    /\ (forall i, (i < off \/ off + b <= i)%nat -> nth_error bb' i = nth_error bb i).
Proof. exact enum_accept. Qed.
Print Assumptions C06_enum_accepts_only_declared.

Example C06_enum_accepts_nonvacuous :
  let ps := [(lit "off", 0); (lit "on", -3)] in
  pt_wf (PEnum 1 ps) = true
  /\ param_set_str (PEnum 1 ps) (Fmt false false) (lit "on") 0 (lit "a") = Ok [byte_of 253]
  /\ param_set_str (PEnum 1 ps) (Fmt false false) (lit "-3") 0 (lit "a") = Ok [byte_of 253]
  /\ param_set_str (PEnum 1 ps) (Fmt true false) (lit "253") 0 (lit "a") = Ok [byte_of 253]
  /\ param_set_str (PEnum 1 ps) (Fmt false false) (lit "1") 0 (lit "a") = Err.
Proof. repeat split; vm_compute; reflexivity. Qed.

(** Every declared literal that is not itself a number is accepted and reads back. *)
Theorem C06_enum_literal : forall b ps f l n off bb,
  pt_wf (PEnum b ps) = true -> (off + b <= List.length bb)%nat ->
  NoDup (map fst ps) -> NoDup (map snd ps) ->
  In (l, n) ps -> width_lo true b <= n <= width_hi true b ->
  ~ In formfeed l -> (forall v, ~ int_text l v) ->
  exists bb', param_set_str (PEnum b ps) f l off bb = Ok bb'
    /\ (forall h, param_get_str (PEnum b ps) (Fmt false h) off bb' = Ok l)
    /\ param_get_val (PEnum b ps) KInt off bb' = Ok (UInt n)
    /\ List.length bb' = List.length bb
    /\ (forall i, (i < off \/ off + b <= i)%nat -> nth_error bb' i = nth_error bb i).
Proof. exact enum_literal_set. Qed.
Print Assumptions C06_enum_literal.

Lemma on_is_no_number : forall v, ~ int_text (lit "on") v.
Proof.
  intros v H. inversion H as [s ds _ HF| | | ]; subst.
  inversion HF as [|? ? ? ? Hd _]; subst. destruct Hd as [Hd1 Hd2]. change (bval "o"%char) with 111 in Hd2. lia.
Qed.

Example C06_enum_literal_nonvacuous :
  let ps := [(lit "off", 0); (lit "on", -3)] in
  pt_wf (PEnum 1 ps) = true /\ NoDup (map fst ps) /\ NoDup (map snd ps) /\ In (lit "on", -3) ps
  /\ width_lo true 1 <= -3 <= width_hi true 1 /\ ~ In formfeed (lit "on") /\ (forall v, ~ int_text (lit "on") v).
Proof.
  cbn [map fst snd]. split; [reflexivity|]. split; [repeat constructor; simpl; intuition discriminate|].
  split; [repeat constructor; simpl; intuition discriminate|]. split; [simpl; auto|].
  split; [vm_compute; intuition discriminate|]. split; [intros H; simpl in H; intuition discriminate|].
  exact on_is_no_number.
Qed.

(** Every declared number is accepted in the real space and reads back. *)
Theorem C06_enum_number : forall b ps s n off bb h,
  pt_wf (PEnum b ps) = true -> (off + b <= List.length bb)%nat ->
  ~ In formfeed s -> int_text s n -> (exists l, In (l, n) ps) ->
  width_lo true b <= n <= width_hi true b ->
  exists bb', param_set_str (PEnum b ps) (Fmt false h) s off bb = Ok bb'
    /\ param_get_val (PEnum b ps) KInt off bb' = Ok (UInt n).
Proof. exact enum_number_set. Qed.
Print Assumptions C06_enum_number.

Example C06_enum_number_nonvacuous : int_text (lit "-3") (-3).
Proof. apply (it_minus (lit "3") [3]); [discriminate|]. repeat constructor; unfold dec_digit; cbn; lia. Qed.

(** Read then write back, in every value space and format.  Missing part: raw space of 32 bit enumerations with
    hexadecimal output or a negative number, where it is false (refutations below). *)
Theorem C06_enum_write_back_partial : forall b ps f n off bb,
  pt_wf (PEnum b ps) = true -> (off + b <= List.length bb)%nat ->
  NoDup (map fst ps) -> NoDup (map snd ps) ->
  (forall l v, In (l, v) ps -> ~ In formfeed l /\ forall w, ~ int_text l w) ->
  (exists l, In (l, n) ps) -> param_get_val (PEnum b ps) KInt off bb = Ok (UInt n) ->
  (f_raw f = true -> b = 4%nat -> f_hex f = false /\ 0 <= n) ->
  exists t, param_get_str (PEnum b ps) f off bb = Ok t
    /\ param_set_str (PEnum b ps) f t off bb = Ok bb.
Proof. exact enum_write_back. Qed.
Print Assumptions C06_enum_write_back_partial.

Example C06_enum_write_back_nonvacuous :
  let ps := [(lit "on", -3)] in
  (forall l v, In (l, v) ps -> ~ In formfeed l /\ forall w, ~ int_text l w)
  /\ param_get_val (PEnum 1 ps) KInt 0 [byte_of 253] = Ok (UInt (-3)).
Proof.
  split; [|vm_compute; reflexivity]. intros l v [H|[]]. inversion H; subst.
  split; [intros K; simpl in K; intuition discriminate|exact on_is_no_number].
Qed.

(** False in general: the raw text of a negative 32 bit value is refused when written back. *)
Theorem C06_raw_write_back_refuted : exists ps off bb t,
  pt_wf (PEnum 4 ps) = true /\ param_get_val (PEnum 4 ps) KInt off bb = Ok (UInt (-1))
  /\ In (lit "minus", -1) ps
  /\ param_get_str (PEnum 4 ps) (Fmt true false) off bb = Ok t
  /\ param_set_str (PEnum 4 ps) (Fmt true false) t off bb = Err.
Proof.
  exists [(lit "minus", -1)], 0%nat, (repeat (byte_of 255) 4), (lit "4294967295").
  repeat split; try (vm_compute; reflexivity). simpl; auto.
Qed.
Print Assumptions C06_raw_write_back_refuted.

(** Reading a 32 bit enumeration in raw hexadecimal shifts by the width of int. *)
Theorem C06_raw_hexa_refuted : exists ps off bb,
  pt_wf (PEnum 4 ps) = true /\ param_get_val (PEnum 4 ps) KInt off bb = Ok (UInt 1)
  /\ In (lit "one", 1) ps /\ param_get_str (PEnum 4 ps) (Fmt true true) off bb = UB.
Proof.
  exists [(lit "one", 1)], 0%nat, (byte_of 1 :: repeat zero 3).
  repeat split; try (vm_compute; reflexivity). simpl; auto.
Qed.
Print Assumptions C06_raw_hexa_refuted.

(** A literal that looks like a number is shadowed by the number. *)
Theorem C06_numeric_literal_refuted : exists ps l n off bb bb' n',
  pt_wf (PEnum 1 ps) = true /\ NoDup (map fst ps) /\ NoDup (map snd ps) /\ In (l, n) ps
  /\ param_set_str (PEnum 1 ps) (Fmt false false) l off bb = Ok bb'
  /\ param_get_val (PEnum 1 ps) KInt off bb' = Ok (UInt n') /\ n' <> n.
Proof.
  exists [(lit "1", 2); (lit "2", 1)], (lit "1"), 2, 0%nat, [zero], [byte_of 1], 1.
  split; [reflexivity|]. split; [repeat constructor; simpl; intuition discriminate|].
  split; [repeat constructor; simpl; intuition discriminate|]. split; [simpl; auto|].
  split; [vm_compute; reflexivity|split; [vm_compute; reflexivity|lia]].
Qed.
Print Assumptions C06_numeric_literal_refuted.

(** In raw space a number that does not fit the size is accepted, reduced to the width. *)
Theorem C06_raw_overflow_refuted : exists ps s off bb bb',
  pt_wf (PEnum 1 ps) = true /\ int_text s 511 /\ (forall l, ~ In (l, 511) ps)
  /\ param_set_str (PEnum 1 ps) (Fmt true false) s off bb = Ok bb'
  /\ param_get_val (PEnum 1 ps) KInt off bb' = Ok (UInt (-1)).
Proof.
  exists [(lit "minus", -1)], (lit "511"), 0%nat, [zero], [byte_of 255].
  split; [reflexivity|]. split.
  { apply (it_dec (lit "511") [5; 1; 1]); [discriminate|]. repeat constructor; unfold dec_digit; cbn; lia. }
  split; [intros l [H|[]]; discriminate|]. split; vm_compute; reflexivity.
Qed.
Print Assumptions C06_raw_overflow_refuted.

(** ** C07: booleans *)

(** Exactly the texts 0, 1, 0x0 and 0x1 are accepted, in both value spaces; the value reads back by every getter. *)
Theorem C07_boolean_text : forall f s off bb, (off + 1 <= List.length bb)%nat ->
  let denotes := fun w : bool => s = (if w then lit "1" else lit "0") \/ s = (if w then lit "0x1" else lit "0x0") in
  (forall w, denotes w ->
     exists bb', param_set_str PBool f s off bb = Ok bb'
       /\ List.length bb' = List.length bb
       /\ (forall i, i <> off -> nth_error bb' i = nth_error bb i)
       /\ param_get_val PBool KBool off bb' = Ok (UBool w)
       /\ param_get_val PBool KUInt off bb' = Ok (UUInt (if w then 1 else 0))
       /\ forall f', param_get_str PBool f' off bb'
            = Ok ((if f_raw f' && f_hex f' then lit "0x" else []) ++ if w then lit "1" else lit "0"))
  /\ ((forall w, ~ denotes w) -> param_set_str PBool f s off bb = Err).
Proof. exact bool_set_get. Qed.
Print Assumptions C07_boolean_text.

Example C07_boolean_text_nonvacuous : (1 + 1 <= List.length (lit "abc"))%nat /\
  param_set_str PBool (Fmt true true) (lit "0x1") 1 (lit "abc") = Ok ["a"; byte_of 1; "c"]%char.
Proof. split; [simpl; lia|vm_compute; reflexivity]. Qed.

Theorem C07_boolean_handle : forall f off bb, (off + 1 <= List.length bb)%nat ->
  (forall w, exists bb', param_set_val PBool f (UBool w) off bb = Ok bb'
     /\ (forall i, i <> off -> nth_error bb' i = nth_error bb i)
     /\ param_get_val PBool KBool off bb' = Ok (UBool w))
  /\ (forall v, 0 <= v -> (v <= 1 -> exists bb', param_set_val PBool f (UUInt v) off bb = Ok bb'
        /\ param_get_val PBool KUInt off bb' = Ok (UUInt v))
      /\ (1 < v -> param_set_val PBool f (UUInt v) off bb = Err)).
Proof. exact bool_handle. Qed.
Print Assumptions C07_boolean_handle.

Example C07_boolean_handle_nonvacuous : (2 + 1 <= List.length (lit "abc"))%nat.
Proof. simpl; lia. Qed.
