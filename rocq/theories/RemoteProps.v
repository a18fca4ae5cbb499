(** The remote protocol: what is received is what was sent (C34), corruption (C35), ill-formed messages (C36). *)
From Coq Require Import List Arith ZArith Bool Ascii String Lia.
From Verif Require Import Base BaseProofs BlackboardModel RemoteModel RemoteSpec RemoteProofs.
Import ListNotations.
Local Open Scope nat_scope.

(** ** C34 *)

Lemma receive_packed : forall s id data rest c l, receive_message s = Ok (Received (id, data) rest) -> packed (c :: l) data ->
  receive_request s = Ok (Received (Request (trim (before_nul c)) (map (fun x => trim (before_nul x)) l)) rest).
Proof. intros s id data rest c l H P. unfold receive_request. rewrite H. cbn [obind]. rewrite (collect_ok c l data P). auto. Qed.

(** A command and its arguments, sent then received: the same command and the same arguments without the blanks at their ends;
    what follows in the stream is left. *)
Theorem C34_request_round_trip : forall command args rest, no_nul command -> Forall no_nul args -> fits command args ->
  exists c l, receive_request (send_request (make_request command args) ++ rest) = Ok (Received (Request c l) rest)
    /\ trimmed command c /\ Forall2 trimmed args l.
Proof.
  intros command args rest N F B. destruct (sent_request command args B) as [data [-> [P [Bd Nd]]]].
  exists (trim command), (map trim args). split; [|split; [apply trim_spec|clear; induction args; simpl; constructor; auto; apply trim_spec]].
  rewrite (receive_packed _ msg_request data rest command (map trim args)); auto using receive_frame.
  rewrite before_nul_same by auto. rewrite map_map. do 3 f_equal. apply map_ext_in. intros x Hx. rewrite before_nul_same; [apply trim_trim|].
  intros C. rewrite Forall_forall in F. apply (F x Hx). apply (trimmed_In x (trim x)); auto. apply trim_spec.
Qed.
Print Assumptions C34_request_round_trip.

(** There is one such command and one such list of arguments. *)
Theorem C34_trimmed_determined : forall s t t', trimmed s t -> trimmed s t' -> t = t'.
Proof. exact trimmed_unique. Qed.
Print Assumptions C34_trimmed_determined.

Theorem C34_answer_round_trip : forall a rest, no_nul (an_text a) -> (Z.of_nat (5 + List.length (an_text a)) < 2 ^ 32)%Z ->
  receive_answer (send_answer a ++ rest) = Ok (Received a rest).
Proof.
  intros [t ok] rest N B. cbn [an_text] in *. destruct (sent_answer (Answer t ok) B) as [data [-> [P [Bd Nd]]]]. cbn [an_text an_ok] in *.
  unfold receive_answer. rewrite receive_frame by auto. cbn [obind]. inversion P as [|x y d Bx Py E1 E2]; subst x y. rewrite read_string_app by auto. cbn [obind fst].
  rewrite before_nul_same by auto. destruct ok; reflexivity.
Qed.
Print Assumptions C34_answer_round_trip.

(** A whole connection: the client sends requests, the server processes each of them once, in order, and sends the answers in the
    same order. *)
Theorem C34_session : forall (T : Type) (process : T -> request -> outcome (answer * T)) reqs seen st answers st',
  Forall (fun r => no_nul (fst r) /\ Forall no_nul (snd r) /\ fits (fst r) (snd r)) reqs ->
  Forall2 (fun r q => trimmed (fst r) (rq_command q) /\ Forall2 trimmed (snd r) (rq_args q)) reqs seen ->
  process_all process st seen = Ok (answers, st') ->
  serve process st (flat_map (fun r => send_request (make_request (fst r) (snd r))) reqs) = Ok (st', flat_map send_answer answers).
Proof.
  intros T process reqs seen st answers st' F G. revert st answers st' F. induction G as [|[c a] q reqs seen [Tc Ta] G IH]; intros st answers st' F H.
  - simpl in H. inversion H; subst. reflexivity.
  - inversion F as [|x y [N1 [N2 B]] F']; subst. cbn [fst snd] in *. cbn [flat_map fst snd].
    destruct (C34_request_round_trip c a (flat_map (fun r => send_request (make_request (fst r) (snd r))) reqs) N1 N2 B) as [c' [l' [R [T1 T2]]]].
    assert (Request c' l' = q) as Eq.
    { destruct q as [c0 l0]. cbn [rq_command rq_args] in *. f_equal; [apply (trimmed_unique c); auto|]. clear - T2 Ta. revert l0 Ta. induction T2; intros l0 Ta; inversion Ta; subst; auto. f_equal; auto. apply (trimmed_unique x); auto. }
    rewrite Eq in R. rewrite (serve_step _ _ _ _ _ _ R). cbn [process_all] in H. destruct (process st q) as [[an s1]| | |]; try discriminate. cbn [obind fst snd] in *.
    destruct (process_all process s1 seen) as [[al s2]| | |] eqn:E; try discriminate. cbn [obind fst snd] in H. inversion H; subst. rewrite (IH s1 al st'); auto.
Qed.
Print Assumptions C34_session.

Example C34_nonvacuous :
  let command := lit "setParameter" in let args := [lit "/Sys/Sub/a"; lit " 12 "; lit ""] in
  no_nul command /\ Forall no_nul args /\ fits command args
  /\ receive_request (send_request (make_request command args) ++ lit "next") = Ok (Received (Request command [lit "/Sys/Sub/a"; lit "12"; lit ""]) (lit "next"))
  /\ receive_answer (send_answer (Answer (lit "Done") true)) = Ok (Received (Answer (lit "Done") true) []).
Proof.
  cbv zeta. split; [intros C; vm_compute in C; intuition discriminate|]. split; [repeat constructor; intros C; vm_compute in C; intuition discriminate|].
  split; [vm_compute; reflexivity|]. split; vm_compute; reflexivity.
Qed.

(** A text with a NUL is cut there. *)
Theorem C34_nul_refuted : exists a, (Z.of_nat (5 + List.length (an_text a)) < 2 ^ 32)%Z /\ receive_answer (send_answer a) <> Ok (Received a []).
Proof. exists (Answer [zero; zero] true). split; [vm_compute; reflexivity|]. vm_compute. intros C. discriminate. Qed.
Print Assumptions C34_nul_refuted.

(** ** C35 *)

(** A message in which one byte of the identifier, of the data or of the checksum is altered is rejected. *)
Theorem C35_altered_rejected : forall i s s' id data rest, receive_message s = Ok (Received (id, data) rest) ->
  altered i s s' -> 6 <= i < 8 + List.length data -> receive_message s' = Ok Rejected.
Proof. exact altered_rejected. Qed.
Print Assumptions C35_altered_rejected.

(** The same for one byte of the synchronisation word. *)
Theorem C35_sync_rejected : forall i s s' id data rest, receive_message s = Ok (Received (id, data) rest) -> altered i s s' -> i < 2 -> receive_message s' = Ok Rejected.
Proof. exact altered_sync. Qed.
Print Assumptions C35_sync_rejected.

(** The server then executes nothing: not this request nor what follows it. *)
Theorem C35_nothing_executed : forall (T : Type) (process : T -> request -> outcome (answer * T)) st command args rest s' i, fits command args ->
  altered i (send_request (make_request command args) ++ rest) s' -> 6 <= i < List.length (send_request (make_request command args)) ->
  serve process st s' = Ok (st, []).
Proof.
  intros T process st command args rest s' i B A I. destruct (sent_request command args B) as [data [E [P [Bd Nd]]]]. rewrite E in *.
  assert (receive_message s' = Ok Rejected) as R.
  { apply (C35_altered_rejected i (frame msg_request data ++ rest) s' msg_request data rest); auto using receive_frame. unfold frame in I. rewrite !app_length, !le_encode_length in I. simpl in I. lia. }
  unfold serve. destruct (List.length s') as [|n]; [auto|]. simpl. unfold receive_request. rewrite R. auto.
Qed.
Print Assumptions C35_nothing_executed.

Example C35_nonvacuous :
  let s := send_request (make_request (lit "sync") []) in
  receive_request s = Ok (Received (Request (lit "sync") []) [])
  /\ altered 12 s (firstn 12 s ++ lit "x" ++ skipn 13 s) /\ receive_message (firstn 12 s ++ lit "x" ++ skipn 13 s) = Ok Rejected.
Proof.
  cbv zeta. split; [vm_compute; reflexivity|]. split; [|vm_compute; reflexivity]. split; [vm_compute; reflexivity|]. split; [vm_compute; lia|]. split; [vm_compute; intros C; discriminate|].
  intros j Hj. do 16 (destruct j as [|j]; [try lia; vm_compute; reflexivity|]). vm_compute. destruct j; reflexivity.
Qed.

(** Not protected: the size (a message cut short is accepted when the byte that follows happens to be the sum), and the order of
    the bytes of the data. *)
Theorem C35_size_refuted : exists s s' i id data rest id' data' rest', receive_message s = Ok (Received (id, data) rest) /\ altered i s s' /\ 2 <= i < 6
  /\ receive_message s' = Ok (Received (id', data') rest') /\ data' <> data.
Proof.
  exists (frame msg_request (map ascii_of_nat [1; 0; 0; 0; 65; 66])), (firstn 2 (frame msg_request (map ascii_of_nat [1; 0; 0; 0; 65; 66])) ++ [ascii_of_nat 6] ++ skipn 3 (frame msg_request (map ascii_of_nat [1; 0; 0; 0; 65; 66]))), 2.
  eexists _, _, _, _, _, _. split; [vm_compute; reflexivity|]. split.
  { split; [vm_compute; reflexivity|]. split; [vm_compute; lia|]. split; [vm_compute; intros C; discriminate|].
    intros j Hj. do 14 (destruct j as [|j]; [try lia; vm_compute; reflexivity|]). vm_compute. destruct j; reflexivity. }
  split; [lia|]. split; [vm_compute; reflexivity|]. vm_compute. intros C. discriminate.
Qed.
Print Assumptions C35_size_refuted.

Theorem C35_swap_refuted : exists c c' data data', c <> c' /\ receive_request (frame msg_request data) = Ok (Received (Request c []) [])
  /\ data' = firstn 4 data ++ rev (skipn 4 data) /\ receive_request (firstn 7 (frame msg_request data) ++ data' ++ skipn (7 + List.length data) (frame msg_request data)) = Ok (Received (Request c' []) []).
Proof.
  exists (lit "ab"), (lit "ba"), (le_encode 4 2 ++ lit "ab"). eexists. split; [discriminate|]. split; [vm_compute; reflexivity|]. split; [reflexivity|]. vm_compute. reflexivity.
Qed.
Print Assumptions C35_swap_refuted.

(** ** C36 *)

(** Whatever is received, the message is rejected, or the process ends with an exception (a size of zero), or a frame is taken
    from the start of the stream, nothing more. *)
Theorem C36_framing_total : forall s,
  receive_message s = Ok Disconnected \/ receive_message s = Ok Rejected
  \/ (exists id data rest, receive_message s = Ok (Received (id, data) rest) /\ s = frame id data ++ rest /\ data <> [])
  \/ (receive_message s = Abort /\ exists x rest, s = le_encode 2 sync_word ++ le_encode 4 0 ++ x :: rest).
Proof.
  intros s. destruct (receive_message s) as [[[id data] rest| |]| | |] eqn:E; auto.
  - right. right. left. destruct (receive_inv _ _ _ _ E) as [H1 [_ H2]]. eauto 10.
  - exfalso. unfold receive_message in E. repeat (match type of E with context [match ?x with _ => _ end] => destruct x end; try discriminate).
  - right. right. right. split; auto. unfold receive_message in E. destruct (read_field 2 s) as [[w s1]|] eqn:R1; [|discriminate]. destruct (le_decode w =? sync_word)%Z eqn:W; cbn [negb] in E; [|discriminate].
    destruct (read_field 4 s1) as [[sz s2]|] eqn:R2; [|discriminate]. destruct (read_field 1 s2) as [[i s3]|] eqn:R3; [|discriminate].
    destruct (le_decode sz =? 0)%Z eqn:Z0; [clear E|exfalso; repeat (match type of E with context [match ?x with _ => _ end] => destruct x end; try discriminate)].
    apply read_field_inv in R1 as [_ [L1 [E1|E1]]]; [|subst s1; discriminate R2]. apply read_field_inv in R2 as [_ [L2 [E2|E2]]]; [|subst s2; discriminate R3].
    assert (s2 = i ++ s3 /\ List.length i = 1) as [E3 L3] by (unfold read_field in R3; destruct s2; [discriminate|inversion R3; subst; auto]).
    apply Z.eqb_eq in W. apply Z.eqb_eq in Z0. destruct i as [|x [|]]; simpl in L3; try lia. exists x, s3. subst. f_equal; [apply le_decode_inj; [rewrite L1; auto|rewrite W; vm_compute; reflexivity]|].
    f_equal. apply le_decode_inj; [rewrite L2; auto|]. rewrite Z0. vm_compute. reflexivity.
  - exfalso. unfold receive_message in E. repeat (match type of E with context [match ?x with _ => _ end] => destruct x end; try discriminate).
Qed.
Print Assumptions C36_framing_total.

(** A message whose data is a sequence of strings is decoded; any other one is read past its end. *)
Theorem C36_decoded_exactly_partial : forall s id data rest, receive_message s = Ok (Received (id, data) rest) ->
  (forall c l, packed (c :: l) data -> exists q, receive_request s = Ok (Received q rest))
  /\ ((forall c l, ~ packed (c :: l) data) -> receive_request s = UB).
Proof.
  intros s id data rest H. split.
  - intros c l P. rewrite (receive_packed s id data rest c l H P). eauto.
  - intros N. unfold receive_request. rewrite H. cbn [obind]. rewrite (collect_ub data N). auto.
Qed.
Print Assumptions C36_decoded_exactly_partial.

Example C36_nonvacuous : exists s id data rest c l, receive_message s = Ok (Received (id, data) rest) /\ packed (c :: l) data.
Proof.
  exists (send_request (make_request (lit "get") [lit "x"])), msg_request. destruct (sent_request (lit "get") [lit "x"]) as [data [E [P [B N]]]]; [vm_compute; reflexivity|].
  exists data, [], (lit "get"), [lit "x"]. rewrite E. rewrite <- (app_nil_r (frame msg_request data)). split; auto using receive_frame.
Qed.

(** Such a message exists: a string longer than the message. *)
Theorem C36_overread_refuted : exists s, receive_request s = UB.
Proof. exists (frame msg_request (le_encode 4 255 ++ lit "x")). vm_compute. reflexivity. Qed.
Print Assumptions C36_overread_refuted.

(** A size of zero ends the process. *)
Theorem C36_size_zero_refuted : exists s, receive_request s = Abort.
Proof. exists (le_encode 2 sync_word ++ le_encode 4 0 ++ [zero]). vm_compute. reflexivity. Qed.
Print Assumptions C36_size_zero_refuted.
