(** C11, C12: string and array parameters. *)
From Coq Require Import List Arith ZArith Bool Ascii String Lia.
From Verif Require Import Base BaseProofs TextModel TextSpec TextProofs RealModel ParamTypeModel ParamTypeSpec
  BlackboardModel BlackboardProofs IntProofs ArrayModel ArraySpec ArrayProofs.
Import ListNotations.
Local Open Scope nat_scope.

(** ** C11: string parameters *)

(** A string is accepted exactly when it is not longer than MaxLength; only the bytes of the string and its terminator,
    all of them inside the parameter, are written. *)
Theorem C11_string_bounds : forall max s off bb, off + (max + 1) <= List.length bb ->
  (List.length s <= max ->
     exists bb', string_set max s off bb = Ok bb' /\ List.length bb' = List.length bb
       /\ slice bb' off (List.length s + 1) = s ++ [zero]
       /\ (forall i, i < off \/ off + List.length s < i -> nth_error bb' i = nth_error bb i))
  /\ (max < List.length s -> string_set max s off bb = Err).
Proof. exact string_set_spec. Qed.
Print Assumptions C11_string_bounds.

Example C11_string_bounds_nonvacuous :
  1 + (3 + 1) <= List.length (lit "abcdefg") /\ List.length (lit "xyz") <= 3 /\ 3 < List.length (lit "wxyz")
  /\ string_set 3 (lit "xyz") 1 (lit "abcdefg") = Ok (lit "axyz" ++ zero :: lit "fg").
Proof. split; [simpl; lia|]. split; [simpl; lia|]. split; [simpl; lia|reflexivity]. Qed.

(** A string is read back as it was set.  Missing: strings with an embedded NUL character, see the refutation. *)
Theorem C11_string_round_trip_partial : forall max s off bb bb', ~ In zero s ->
  string_set max s off bb = Ok bb' -> string_get off bb' = Ok s.
Proof. exact string_set_get. Qed.
Print Assumptions C11_string_round_trip_partial.

Example C11_string_round_trip_nonvacuous : ~ In zero (lit "hi") /\ exists bb', string_set 3 (lit "hi") 1 (lit "abcdefg") = Ok bb'.
Proof. split; [intros H; simpl in H; intuition discriminate|]. eexists; reflexivity. Qed.

(** A string with an embedded NUL is accepted and read back cut at the NUL. *)
Theorem C11_embedded_nul_refuted : exists max s off bb bb',
  string_set max s off bb = Ok bb' /\ string_get off bb' <> Ok s.
Proof.
  exists 3, ["a"%char; zero; "b"%char], 0, (lit "wxyz"), ["a"%char; zero; "b"%char; zero].
  split; [reflexivity|]. vm_compute. discriminate.
Qed.
Print Assumptions C11_embedded_nul_refuted.

(** After any accepted set the parameter is terminated. *)
Theorem C11_set_terminates : forall max s off bb bb', string_set max s off bb = Ok bb' -> terminated max off bb'.
Proof. exact string_set_terminated. Qed.
Print Assumptions C11_set_terminates.

(** Reading a terminated parameter only depends on its own bytes.  Missing: a parameter whose bytes contain no NUL,
    see the refutations. *)
Theorem C11_read_own_bytes_partial : forall max off bb, terminated max off bb ->
  exists s, string_get off bb = Ok s /\ List.length s <= max /\ ~ In zero s
    /\ slice bb off (List.length s + 1) = s ++ [zero].
Proof. exact string_get_terminated. Qed.
Print Assumptions C11_read_own_bytes_partial.

Example C11_read_own_bytes_nonvacuous : terminated 3 1 (lit "axyz" ++ zero :: lit "fg").
Proof. exists 3. split; [lia|reflexivity]. Qed.

(** Bytes given without terminator (setElementBytes, setAsBytes, imported settings): the read returns the following
    parameter's data. *)
Theorem C11_unterminated_refuted : exists max off bytes bb bb',
  List.length bytes = string_size max /\ bb_write_bytes bb bytes off = Ok bb'
  /\ string_get off bb' = Ok (bytes ++ lit "SECRET").
Proof.
  exists 3, 0, (lit "wxyz"), (lit "1234SECRET" ++ [zero]), (lit "wxyzSECRET" ++ [zero]).
  repeat split.
Qed.
Print Assumptions C11_unterminated_refuted.

(** At the end of the memory the read runs past it. *)
Theorem C11_unterminated_end_refuted : exists max off bytes bb bb',
  List.length bytes = string_size max /\ bb_write_bytes bb bytes off = Ok bb' /\ string_get off bb' = UB.
Proof. exists 3, 2, (lit "wxyz"), (lit "123456"), (lit "12wxyz"). repeat split. Qed.
Print Assumptions C11_unterminated_end_refuted.

(** ** C12: array parameters *)

(** A text of values, one run of non delimiter characters each, that fits from element [start] on: these elements, and
    only these, take the values. *)
Theorem C12_set_values : forall t len f start off s vals us bb,
  runs array_delimiters s vals -> Forall2 (fun v u => to_bb_str t f v = Ok u) vals us ->
  start + List.length vals <= len -> off + len * pt_size t <= List.length bb ->
  exists bb', array_set_text t len f start off s bb = Ok (true, bb')
    /\ stores (pt_size t) (off + start * pt_size t) us bb bb'.
Proof. exact array_set_text_Ok. Qed.
Print Assumptions C12_set_values.

Example C12_set_values_nonvacuous :
  let t := PInt true 2 (-100) 100 in let s := lit " 7, -1" in
  runs array_delimiters s [lit "7"; lit "-1"]
  /\ Forall2 (fun v u => to_bb_str t (Fmt false false) v = Ok u) [lit "7"; lit "-1"] [7%Z; 4294967295%Z]
  /\ 1 + 2 <= 3 /\ 1 + 3 * pt_size t <= List.length (lit "abcdefgh")
  /\ array_set_text t 3 (Fmt false false) 1 1 s (lit "abcdefgh")
     = Ok (true, lit "abc" ++ [byte_of 7; byte_of 0; byte_of 255; byte_of 255] ++ lit "h").
Proof.
  cbv zeta. split; [apply split_merge_spec; reflexivity|]. split; [repeat constructor|].
  split; [lia|]. split; [simpl; lia|]. vm_compute. reflexivity.
Qed.

(** Too many values: rejected, nothing changes. *)
Theorem C12_too_many_values : forall t len f start off s vals bb,
  runs array_delimiters s vals -> len < start + List.length vals ->
  array_set_text t len f start off s bb = Ok (false, bb).
Proof. exact array_set_text_too_many. Qed.
Print Assumptions C12_too_many_values.

Example C12_too_many_values_nonvacuous : runs array_delimiters (lit "1 2") [lit "1"; lit "2"] /\ 2 < 1 + 2.
Proof. split; [apply split_merge_spec; reflexivity|lia]. Qed.

(** A refused value: the request is rejected, having written exactly the values before it.  The full property (a
    rejected request changes nothing) is false, see the refutation. *)
Theorem C12_refused_value_partial : forall t len f start off s good us v rest bb,
  runs array_delimiters s (good ++ v :: rest) -> Forall2 (fun v u => to_bb_str t f v = Ok u) good us ->
  to_bb_str t f v = Err ->
  start + List.length (good ++ v :: rest) <= len -> off + len * pt_size t <= List.length bb ->
  exists bb', array_set_text t len f start off s bb = Ok (false, bb')
    /\ stores (pt_size t) (off + start * pt_size t) us bb bb'.
Proof. exact array_set_text_refused. Qed.
Print Assumptions C12_refused_value_partial.

Example C12_refused_value_nonvacuous :
  let t := PInt true 2 (-100) 100 in
  runs array_delimiters (lit "7 101 8") ([lit "7"] ++ lit "101" :: [lit "8"])
  /\ Forall2 (fun v u => to_bb_str t (Fmt false false) v = Ok u) [lit "7"] [7%Z]
  /\ to_bb_str t (Fmt false false) (lit "101") = Err.
Proof. cbv zeta. split; [apply split_merge_spec; reflexivity|]. split; [repeat constructor|reflexivity]. Qed.

Theorem C12_rejected_atomic_refuted : exists t len f start off s bb bb',
  pt_wf t = true /\ off + len * pt_size t <= List.length bb
  /\ array_set_text t len f start off s bb = Ok (false, bb') /\ bb' <> bb.
Proof.
  exists (PInt false 1 0 100), 3, (Fmt false false), 0, 0, (lit "65 101 66"), (lit "xyz"), (lit "Ayz").
  split; [reflexivity|]. split; [simpl; lia|]. split; [vm_compute; reflexivity|discriminate].
Qed.
Print Assumptions C12_rejected_atomic_refuted.

(** Whatever the text, the elements before the starting index and the other parameters are left alone. *)
Theorem C12_set_frame : forall t len f start off s bb, start <= len ->
  off + len * pt_size t <= List.length bb ->
  exists ok bb', array_set_text t len f start off s bb = Ok (ok, bb')
    /\ List.length bb' = List.length bb
    /\ (forall i, i < off + start * pt_size t \/ off + len * pt_size t <= i -> nth_error bb' i = nth_error bb i).
Proof. exact array_set_text_frame. Qed.
Print Assumptions C12_set_frame.

Example C12_set_frame_nonvacuous : 1 <= 3 /\ 1 + 3 * pt_size (PInt true 2 (-100) 100) <= List.length (lit "abcdefgh").
Proof. simpl; lia. Qed.

(** The index item of the path: decimal digits, possibly followed by anything (see the refutation), denote the element;
    beyond the last element, or with a further path item, the access is refused. *)
Theorem C12_index_partial : forall len s ds junk more, Forall2 dec_digit s ds -> ds <> [] ->
  (match junk with c :: _ => forall d, ~ dec_digit c d | [] => True end) ->
  (Z.of_nat len <= 2 ^ 64)%Z ->
  array_index len ((s ++ junk) :: more)
  = if (Z.of_nat len <=? positional 10 ds)%Z then Err
    else match more with [] => Ok (Some (Z.to_nat (positional 10 ds))) | _ => Err end.
Proof. exact array_index_digits. Qed.
Print Assumptions C12_index_partial.

Example C12_index_nonvacuous : Forall2 dec_digit (lit "12") [1%Z; 2%Z]
  /\ array_index 13 [lit "12"] = Ok (Some 12) /\ array_index 12 [lit "12"] = Err /\ array_index 13 [lit "12"; lit "x"] = Err.
Proof. split; [repeat constructor; unfold dec_digit; cbn; lia|]. repeat split. Qed.

(** Texts which are not an index are accepted as one. *)
Theorem C12_index_refuted : exists len,
  array_index len [lit "1abc"] = Ok (Some 1) /\ array_index len [lit "-18446744073709551615"] = Ok (Some 1).
Proof. exists 3. split; vm_compute; reflexivity. Qed.
Print Assumptions C12_index_refuted.

(** Reading element [i] of an array of the main memory (no base offset) returns the text of that element, the whole
    array is the list of these texts. *)
Theorem C12_get_element : forall t len f i off bb txt, (Z.of_nat len <= 2 ^ 64)%Z -> i < len ->
  forall ds, Forall2 dec_digit txt ds -> ds <> [] -> positional 10 ds = Z.of_nat i ->
  array_access_get t len f [txt] off 0 bb = param_get_str t f (off + i * pt_size t) bb.
Proof.
  intros t len f i off bb txt Hl Hi ds H Hd Hp. unfold array_access_get.
  pose proof (array_index_digits len txt ds [] [] H Hd I Hl) as E. rewrite app_nil_r in E. rewrite E, Hp.
  destruct (Z.leb_spec (Z.of_nat len) (Z.of_nat i)); [lia|]. cbn [obind]. rewrite Nat2Z.id. auto.
Qed.
Print Assumptions C12_get_element.

Example C12_get_element_nonvacuous :
  array_access_get (PInt false 1 0 255) 3 (Fmt false false) [lit "2"] 1 0 (lit "abcd") = Ok (lit "100").
Proof. vm_compute. reflexivity. Qed.

Theorem C12_get_whole : forall t len f off base bb s, base <= off ->
  array_access_get t len f [] off base bb = Ok s ->
  exists l, s = join (lit " ") l /\ List.length l = len
    /\ forall j, j < len -> exists v, nth_error l j = Some v /\ param_get_str t f (off - base + j * pt_size t) bb = Ok v.
Proof.
  intros t len f off base bb s Hb H. unfold array_access_get, array_index in H. cbn [obind] in H.
  unfold array_get_text, omap in H. destruct (array_get_list t f len (off - base) bb) as [l| | |] eqn:E; try discriminate.
  cbn [obind] in H. inversion H; subst s. exists l. split; auto. apply (array_get_list_spec t f len _ bb l E).
Qed.
Print Assumptions C12_get_whole.

Example C12_get_whole_nonvacuous :
  array_access_get (PInt false 1 0 255) 3 (Fmt false false) [] 11 10 (lit "abcd") = Ok (lit "98 99 100").
Proof. vm_compute. reflexivity. Qed.

(** In the memory of a configuration (base offset), reading one element reads another place, or aborts. *)
Theorem C12_get_element_refuted : exists t len f off base bb,
  base <= off /\ off - base + len * pt_size t <= List.length bb
  /\ array_access_get t len f [] off base bb = Ok (lit "97 98")
  /\ array_access_get t len f [lit "1"] off base bb = Ok (lit "100")
  /\ array_access_get t len f [lit "1"] (off + 2) (base + 2) bb = Abort.
Proof.
  exists (PInt false 1 0 255), 2, (Fmt false false), 2, 2, (lit "abcd").
  split; [lia|]. split; [simpl; lia|]. repeat split; vm_compute; reflexivity.
Qed.
Print Assumptions C12_get_element_refuted.

(** The text of a whole array can be written back, provided that each element's text is a word that can be written
    back.  Missing: elements whose text contains delimiters or is empty, see the refutation. *)
Theorem C12_write_back_partial : forall t len f off bb, 0 < pt_size t ->
  off + len * pt_size t <= List.length bb ->
  (forall j, j < len -> exists s, param_get_str t f (off + j * pt_size t) bb = Ok s
     /\ s <> [] /\ (forall c, In c s -> ~ In c array_delimiters)
     /\ param_set_str t f s (off + j * pt_size t) bb = Ok bb) ->
  exists s, array_get_text t len f off bb = Ok s /\ array_set_text t len f 0 off s bb = Ok (true, bb).
Proof. exact array_write_back_cells. Qed.
Print Assumptions C12_write_back_partial.

Theorem C12_integer_write_back : forall sg b lo hi len f off bb, pt_wf (PInt sg b lo hi) = true ->
  off + len * b <= List.length bb ->
  (forall j, j < len -> exists v, bb_read_int bb b (off + j * b) = Ok (word_of b v) /\ (lo <= v <= hi)%Z) ->
  exists s, array_get_text (PInt sg b lo hi) len f off bb = Ok s
    /\ array_set_text (PInt sg b lo hi) len f 0 off s bb = Ok (true, bb).
Proof. exact array_int_write_back. Qed.
Print Assumptions C12_integer_write_back.

Example C12_integer_write_back_nonvacuous :
  pt_wf (PInt true 1 (-100) 100) = true
  /\ (forall j, j < 2 -> exists v, bb_read_int [zero; byte_of 214; byte_of 7] 1 (1 + j * 1) = Ok (word_of 1 v) /\ (-100 <= v <= 100)%Z)
  /\ array_get_text (PInt true 1 (-100) 100) 2 (Fmt false false) 1 [zero; byte_of 214; byte_of 7] = Ok (lit "-42 7").
Proof.
  split; [reflexivity|]. split; [|vm_compute; reflexivity]. intros [|[|j]] Hj; [| |lia].
  - exists (-42)%Z. split; [vm_compute; reflexivity|lia].
  - exists 7%Z. split; [vm_compute; reflexivity|lia].
Qed.

Theorem C12_boolean_write_back : forall len f off bb, off + len <= List.length bb ->
  (forall j, j < len -> nth_error bb (off + j) = Some zero \/ nth_error bb (off + j) = Some (byte_of 1)) ->
  exists s, array_get_text PBool len f off bb = Ok s /\ array_set_text PBool len f 0 off s bb = Ok (true, bb).
Proof. exact array_bool_write_back. Qed.
Print Assumptions C12_boolean_write_back.

Example C12_boolean_write_back_nonvacuous :
  array_get_text PBool 2 (Fmt true true) 1 ["x"%char; byte_of 1; zero] = Ok (lit "0x1 0x0").
Proof. reflexivity. Qed.

(** Enumeration literals may contain a space: the text of the whole array is then refused. *)
Theorem C12_write_back_refuted : exists ps len f off bb s,
  pt_wf (PEnum 1 ps) = true
  /\ array_get_text (PEnum 1 ps) len f off bb = Ok s
  /\ array_set_text (PEnum 1 ps) len f 0 off s bb = Ok (false, bb).
Proof.
  exists [(lit "very low", 0%Z); (lit "high", 1%Z)], 2, (Fmt false false), 0, [zero; byte_of 1], (lit "very low high").
  split; [reflexivity|]. split; vm_compute; reflexivity.
Qed.
Print Assumptions C12_write_back_refuted.

(** Vectors (handles): all the values accepted, element [j] takes the [j]-th one; the vector read is the list of the
    elements. *)
Theorem C12_set_vector : forall t f vals us, Forall2 (fun v u => to_bb_val t f v = Ok u) vals us ->
  forall off bb, off + List.length us * pt_size t <= List.length bb ->
  exists bb', array_set_vals t f vals off bb = Ok (true, bb') /\ stores (pt_size t) off us bb bb'.
Proof. exact array_set_vals_Ok. Qed.
Print Assumptions C12_set_vector.

Example C12_set_vector_nonvacuous :
  Forall2 (fun v u => to_bb_val (PInt true 2 (-100) 100) (Fmt false false) v = Ok u) [UInt 7; UInt (-1)] [7%Z; 4294967295%Z].
Proof. repeat constructor. Qed.

Theorem C12_get_vector : forall t k n off bb l, array_get_vals t k n off bb = Ok l ->
  List.length l = n /\ forall j, j < n -> exists v, nth_error l j = Some v
     /\ param_get_val t k (off + j * pt_size t) bb = Ok v.
Proof. exact array_get_vals_spec. Qed.
Print Assumptions C12_get_vector.

Example C12_get_vector_nonvacuous :
  array_get_vals (PInt false 1 0 255) KUInt 2 1 (lit "abc") = Ok [UUInt 98; UUInt 99].
Proof. vm_compute. reflexivity. Qed.

(** Defaults: every element takes the default value of its type. *)
Theorem C12_defaults : forall t n off bb, off + n * pt_size t <= List.length bb ->
  exists bb', array_set_default t n off bb = Ok bb' /\ stores (pt_size t) off (repeat (pt_default t) n) bb bb'.
Proof. exact array_set_default_spec. Qed.
Print Assumptions C12_defaults.
