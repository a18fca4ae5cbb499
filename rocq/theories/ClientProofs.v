(** Lemmas about the command line client. *)
From Coq Require Import List Arith ZArith Bool Ascii String Lia.
From Verif Require Import Base BaseProofs BlackboardModel BlackboardProofs RemoteModel RemoteSpec RemoteProofs ClientModel ClientSpec.
Import ListNotations.
Local Open Scope nat_scope.

Lemma c_string_up : forall s t, c_string (s ++ [zero]) = Some t -> up_to_nul s t.
Proof.
  induction s as [|c s IH]; cbn [c_string app]; intros t H.
  - cbn in H. injection H as <-. split; [intros []|auto].
  - destruct (char_eqb c zero) eqn:E.
    + injection H as <-. apply char_eqb_eq in E. subst c. split; [intros []|right; exists s; reflexivity].
    + destruct (c_string (s ++ [zero])) as [u|] eqn:Eu; [|discriminate]. injection H as <-. destruct (IH u eq_refl) as [N K]. split.
      * intros [Q|Q]; [subst c; rewrite (proj2 (char_eqb_eq zero zero) eq_refl) in E; discriminate|exact (N Q)].
      * destruct K as [->|[r ->]]; [left; reflexivity|right; exists r; reflexivity].
Qed.

Lemma before_nul_up : forall s, up_to_nul s (before_nul s).
Proof. intros s. unfold before_nul. destruct (c_string_some s) as [t E]. rewrite E. apply c_string_up. exact E. Qed.

Lemma up_to_nul_unique : forall s t u, up_to_nul s t -> up_to_nul s u -> t = u.
Proof.
  assert (forall t u r, no_nul t -> no_nul u -> t = u ++ zero :: r -> False) as A by (intros t u r N _ ->; apply N; apply in_or_app; right; left; reflexivity).
  intros s t u [N1 [->|[r1 E1]]] [N2 [E|[r2 E2]]]; auto.
  - exfalso. eauto.
  - exfalso. subst s. eauto.
  - rewrite E1 in E2. clear E1 s. revert u N2 E2. induction t as [|c t IH]; intros [|d u] N2 E2; cbn in E2; auto.
    + injection E2 as <- _. exfalso. apply N2. left. reflexivity.
    + injection E2 as -> _. exfalso. apply N1. left. reflexivity.
    + injection E2 as -> E2. f_equal. apply IH; auto; [intros Q; apply N1; right; exact Q|intros Q; apply N2; right; exact Q].
Qed.

Lemma answers_received : forall s id text, answers s id text -> exists rest, receive_answer s = Ok (Received (Answer (before_nul text) (char_eqb id msg_success)) rest).
Proof.
  intros s id text [more [rest [-> B]]]. exists rest. unfold receive_answer.
  assert (List.length (le_encode 4 (Z.of_nat (List.length text))) = 4) as L by apply le_encode_length.
  rewrite receive_frame.
  - cbn [obind]. rewrite read_string_app by lia. reflexivity.
  - intros Q. apply (f_equal (@List.length byte)) in Q. rewrite app_length, L in Q. discriminate Q.
  - rewrite !app_length, L. lia.
Qed.

Lemma received_answers : forall s a rest, receive_answer s = Ok (Received a rest) ->
  exists id text, answers s id text /\ an_text a = before_nul text /\ an_ok a = char_eqb id msg_success.
Proof.
  intros s a rest H. unfold receive_answer in H. destruct (receive_message s) as [[[id data] r| |]| | |] eqn:E; try discriminate. cbn [obind] in H.
  apply receive_inv in E. destruct E as [_ [B ->]]. destruct (read_string_cases data) as [[t [more [Bt [Ed Er]]]]|[Er _]]; rewrite Er in H; [|discriminate]. cbn [obind fst snd] in H. injection H as <- <-.
  exists id, t. split; [|split; reflexivity]. exists more, r. split; [rewrite Ed; reflexivity|]. rewrite Ed, !app_length, le_encode_length in B. lia.
Qed.

Lemma sent_answers : forall a rest, holds (an_text a) -> answers (send_answer a ++ rest) (if an_ok a then msg_success else msg_failure) (an_text a).
Proof.
  intros a rest B. destruct (sent_answer a B) as [data [-> [P [Bd _]]]]. inversion P as [|x y d Bx Py Q1 Q2]; subst. inversion Py; subst. exists [], rest. split; [reflexivity|]. cbn [List.length]. unfold holds in B. lia.
Qed.

Lemma display_answers : forall nw s id text, answers s id text ->
  display nw s = Ok (if char_eqb id msg_success then Exit 0 (before_nul text ++ new_line) [] else Exit 1 [] (before_nul text ++ new_line)).
Proof. intros nw s id text A. destruct (answers_received s id text A) as [rest E]. unfold display. rewrite E. reflexivity. Qed.
