(** C82: the command line client. *)
From Coq Require Import List Arith ZArith Bool Ascii String Lia.
From Verif Require Import Base BaseProofs BlackboardModel RemoteModel RemoteSpec RemoteProofs RemoteProps TreeModel SyncModel DomainModel MgrModel CommandModel CommandSpec CommandProofs CommandProps Demo
  ClientModel ClientSpec ClientProofs.
Import ListNotations.
Local Open Scope nat_scope.

Lemma usage_line : forall p, exists t, client_usage p = t ++ new_line.
Proof.
  intros p. unfold client_usage. remember (lit " hostname port command [argument[s]]") as z. remember (lit "Missing arguments") as a. remember (lit "Usage: ") as b. remember (lit "Send a single command:") as c.
  exists (a ++ new_line ++ b ++ new_line ++ c ++ new_line ++ ascii_of_nat 9 :: p ++ z). rewrite <- !app_assoc, <- app_comm_cons, <- app_assoc. reflexivity.
Qed.

Lemma refused_line : forall h p w, exists t, refused_text h p w = t ++ new_line.
Proof.
  intros h p w. unfold refused_text. remember (lit "Connection to '") as a. remember (lit ":") as b. remember (lit "' failed: ") as c. exists (a ++ h ++ b ++ p ++ c ++ w). rewrite <- !app_assoc. reflexivity.
Qed.
Lemma trouble_line : forall w, exists t, trouble_text w = t ++ new_line.
Proof. intros w. unfold trouble_text. remember (lit "Unable to received answer from target: ") as a. exists (a ++ w). rewrite <- !app_assoc. reflexivity. Qed.

(** Whatever the other side sends, the exit code is 0 or 1.  It is 0 exactly if the other side sent a well-formed answer of success; the
    text of the answer is then all that is on the output.  With a code of 1 there is nothing on the output and there is something on
    the error output. *)
Theorem C82_codes : forall (T : Type) nw (peer : T -> list byte -> outcome (T * list byte)) st argv e st', client nw peer st argv = Ok (e, st') ->
  (ex_code e = 0%Z <-> exists program host port command args s text, argv = program :: host :: port :: command :: args /\ nw_refuses nw host port = None
     /\ peer st (send_request (make_request command args)) = Ok (st', s) /\ answers s msg_success text)
  /\ (ex_code e = 0%Z -> ex_err e = []
      /\ forall program host port command args s text, argv = program :: host :: port :: command :: args -> peer st (send_request (make_request command args)) = Ok (st', s) -> answers s msg_success text ->
           forall u, up_to_nul text u -> succeeds e u)
  /\ (ex_code e <> 0%Z -> ex_code e = 1%Z /\ ex_out e = [] /\ exists text, fails e text).
Proof.
  intros T nw peer st argv e st' H.
  assert (K : (exists program host port command args s text, argv = program :: host :: port :: command :: args /\ nw_refuses nw host port = None
                /\ peer st (send_request (make_request command args)) = Ok (st', s) /\ answers s msg_success text /\ succeeds e (before_nul text))
              \/ ((exists text, fails e text) /\ ~ exists program host port command args s text, argv = program :: host :: port :: command :: args /\ nw_refuses nw host port = None
                /\ peer st (send_request (make_request command args)) = Ok (st', s) /\ answers s msg_success text)).
  { destruct argv as [|program [|host [|port [|command args]]]]; [discriminate H|..].
    1-3: assert (e = Exit 1 [] (client_usage program)) as -> by (cbn [client] in H; congruence); right; split; [destruct (usage_line program) as [t ->]; exists t; reflexivity|intros [? [? [? [? [? [? [? [Q _]]]]]]]]; discriminate Q].
    cbn [client] in H. destruct (nw_refuses nw host port) as [what|] eqn:E.
    - assert (e = Exit 1 [] (refused_text host port what)) as -> by congruence. right. split; [destruct (refused_line host port what) as [t ->]; exists t; reflexivity|]. intros [p' [h' [o' [c' [a' [s [t [Q [E' _]]]]]]]]]. injection Q as <- <- <- <- <-. congruence.
    - destruct (peer st _) as [[st1 s]| | |] eqn:P; try discriminate. cbn [obind fst snd] in H. destruct (display nw s) as [e1| | |] eqn:D; try discriminate. cbn [obind] in H. injection H as -> ->.
      assert (U : forall s' text, peer st (send_request (make_request command args)) = Ok (st', s') -> answers s' msg_success text -> succeeds e (before_nul text)).
      { intros s' t P' A. rewrite P in P'. injection P' as <-. rewrite (display_answers nw s _ t A) in D. injection D as <-. reflexivity. }
      unfold display in D. destruct (receive_answer s) as [[a r| |]| | |] eqn:Ra; try discriminate; cbn [obind] in D; injection D as D.
      + destruct (received_answers s a r Ra) as [id [t [A [At Ao]]]]. destruct (an_ok a) eqn:Eo.
        * left. symmetry in Ao. apply char_eqb_eq in Ao. subst id. exists program, host, port, command, args, s, t. repeat (split; auto). apply (U s t P A).
        * right. split; [exists (an_text a); symmetry; exact D|]. intros [p' [h' [o' [c' [a' [s' [t' [Q [_ [P' A']]]]]]]]]]. injection Q as <- <- <- <- <-. pose proof (U s' t' P' A') as V. unfold succeeds in V. rewrite <- D in V. discriminate V.
      + right. split; [rewrite <- D; destruct (trouble_line (nw_trouble nw)) as [t ->]; exists t; reflexivity|]. intros [p' [h' [o' [c' [a' [s' [t' [Q [_ [P' A']]]]]]]]]]. injection Q as <- <- <- <- <-. pose proof (U s' t' P' A') as V. unfold succeeds in V. rewrite <- D in V. discriminate V.
      + right. split; [rewrite <- D; destruct (trouble_line (nw_trouble nw)) as [t ->]; exists t; reflexivity|]. intros [p' [h' [o' [c' [a' [s' [t' [Q [_ [P' A']]]]]]]]]]. injection Q as <- <- <- <- <-. pose proof (U s' t' P' A') as V. unfold succeeds in V. rewrite <- D in V. discriminate V. }
  destruct K as [[program [host [port [command [args [s [text [-> [E [P [A S]]]]]]]]]]]|[[text F] N]].
  - split; [|split].
    + split; [intros _; exists program, host, port, command, args, s, text; auto|intros _; rewrite S; reflexivity].
    + intros _. split; [rewrite S; reflexivity|]. intros p' h' o' c' a' s' t' Q P' A' u Hu. injection Q as <- <- <- <- <-. rewrite P in P'. injection P' as <-.
      pose proof (display_answers nw s _ text A) as D1. rewrite (display_answers nw s _ t' A') in D1. cbn in D1. injection D1 as D1. rewrite (up_to_nul_unique t' u (before_nul t') Hu (before_nul_up t')).
      apply app_inv_tail in D1. rewrite D1. exact S.
    + intros Q. exfalso. apply Q. rewrite S. reflexivity.
  - split; [|split].
    + split; [rewrite F; discriminate|intros Q; exfalso; exact (N Q)].
    + rewrite F. discriminate.
    + intros _. split; [rewrite F; reflexivity|]. split; [rewrite F; reflexivity|]. exists text. exact F.
Qed.
Print Assumptions C82_codes.

(** With too few arguments, or without a connection, nothing is asked to the other side. *)
Theorem C82_not_asked : forall (T : Type) nw (st : T) argv, argv <> [] ->
  List.length argv < 4 \/ (exists program host port rest what, argv = program :: host :: port :: rest /\ nw_refuses nw host port = Some what) ->
  exists text, forall (peer : T -> list byte -> outcome (T * list byte)), client nw peer st argv = Ok (Exit 1 [] (text ++ line_end), st).
Proof.
  intros T nw st argv N H. destruct argv as [|program [|host [|port [|command args]]]]; [destruct N; reflexivity|..].
  1-3: destruct (usage_line program) as [t E]; exists t; intros peer; cbn [client]; rewrite E; reflexivity.
  destruct H as [H|[p' [h' [o' [r [what [Q E]]]]]]]; [cbn in H; lia|]. injection Q as <- <- <- <-. destruct (refused_line host port what) as [t Et]. exists t. intros peer. cbn [client]. rewrite E, Et. reflexivity.
Qed.
Print Assumptions C82_not_asked.

(** With a server: it processes the command once, with its arguments in order, each without the blanks at its ends; the text of
    its answer is displayed, and the exit code says whether it succeeded. *)
Theorem C82_command : forall (T : Type) nw (process : T -> request -> outcome (answer * T)) st program host port command args c l a st' u,
  nw_refuses nw host port = None -> no_nul command -> Forall no_nul args -> fits command args -> trimmed command c -> Forall2 trimmed args l ->
  process st (Request c l) = Ok (a, st') -> holds (an_text a) -> up_to_nul (an_text a) u ->
  exists e, client nw (serve process) st (program :: host :: port :: command :: args) = Ok (e, st') /\ if an_ok a then succeeds e u else fails e u.
Proof.
  intros T nw process st program host port command args c l a st' u E N1 N2 B Tc Tl P Ha Hu. cbn [client]. rewrite E.
  pose proof (C34_session T process [(command, args)] [Request c l] st [a] st') as S. cbn [flat_map fst snd app] in S. rewrite !app_nil_r in S. rewrite S; clear S; [|auto|auto|].
  - cbn [obind fst snd]. pose proof (sent_answers a [] Ha) as A. rewrite app_nil_r in A. rewrite (display_answers nw _ _ _ A). cbn [obind]. eexists. split; [reflexivity|].
    rewrite (up_to_nul_unique _ _ _ (before_nul_up (an_text a)) Hu). destruct (an_ok a); reflexivity.
  - cbn [process_all]. rewrite P. reflexivity.
Qed.
Print Assumptions C82_command.

Lemma process_means : forall y ev m name args c b m', means (ev_need ev) name args c -> step y m c = Ok (b, m') ->
  process y ev m (Request (lit name) args) = Ok (Answer (if b then lit "Done" else ev_error ev (Request (lit name) args) m) b, m').
Proof.
  intros y ev m name args c b m' H S. destruct (means_plan _ _ _ _ H) as [e [F [L [P [N _]]]]]. unfold process. cbn [rq_command rq_args]. rewrite F.
  rewrite (proj2 (str_eqb_neq _ _) N). replace (List.length args <? en_min e) with false by (symmetry; apply Nat.ltb_ge; auto). rewrite P. cbn [obind execute]. unfold done. rewrite S.
  destruct b; reflexivity.
Qed.

(** A script of such command lines: they have, in order, the effect of the commands that they mean, and the exit code of each is 0
    exactly if its command succeeded. *)
Theorem C82_script : forall y ev nw program host port reqs cmds m bs m',
  nw_refuses nw host port = None -> (forall q m, holds (ev_error ev q m)) ->
  Forall (fun r => no_nul (lit (fst r)) /\ Forall no_nul (snd r) /\ fits (lit (fst r)) (snd r) /\ trimmed (lit (fst r)) (lit (fst r)) /\ Forall (fun a => trimmed a a) (snd r)) reqs ->
  Forall2 (fun r c => means (ev_need ev) (fst r) (snd r) c) reqs cmds -> run y m cmds = Ok (bs, m') ->
  exists exits, clients nw (serve (process y ev)) m (map (fun r => program :: host :: port :: lit (fst r) :: snd r) reqs) = Ok (exits, m')
    /\ map ex_code exits = map (fun b : bool => if b then 0%Z else 1%Z) bs
    /\ Forall2 (fun (b : bool) e => if b then succeeds e (lit "Done") else exists t, fails e t) bs exits.
Proof.
  intros y ev nw program host port reqs cmds m bs m' E He F G. revert m bs m'. induction G as [|[name args] c reqs cmds M G IH]; intros m bs m' R; cbn [run map clients] in *.
  - injection R as <- <-. exists []. auto.
  - inversion F as [|x z [N1 [N2 [B [T1 T2]]]] F']; subst. cbn [fst snd] in *. destruct (step y m c) as [[b m1]| | |] eqn:S; try discriminate. cbn [obind fst snd] in R. destruct (run y m1 cmds) as [[bs1 m2]| | |] eqn:R1; try discriminate.
    cbn [obind fst snd] in R. injection R as <- <-. destruct (IH F' m1 bs1 m2 R1) as [exits [C1 [C2 C3]]].
    pose proof (process_means y ev m name args c b m1 M S) as P.
    assert (Tl : Forall2 trimmed args args) by (clear - T2; induction T2; constructor; auto).
    assert (Ha : holds (an_text (Answer (if b then lit "Done" else ev_error ev (Request (lit name) args) m) b))) by (cbn [an_text]; destruct b; [vm_compute; reflexivity|apply He]).
    destruct (C82_command mgr nw (process y ev) m program host port _ _ _ _ _ m1 _ E N1 N2 B T1 Tl P Ha (before_nul_up _)) as [e [Ce Se]].
    rewrite Ce. cbn [obind fst snd]. rewrite C1. cbn [obind fst snd]. exists (e :: exits). split; [reflexivity|]. cbn [an_text an_ok] in Se. cbn [map]. rewrite C2. destruct b; cbn in Se.
    + split; [rewrite Se; reflexivity|]. constructor; [exact Se|exact C3].
    + split; [rewrite Se; reflexivity|]. constructor; [eexists; exact Se|exact C3].
Qed.
Print Assumptions C82_script.

(** Three command lines for the framework of the demonstration: tuning on, a parameter set, then a value out of its range. *)
Definition cx_network : network := Network (fun _ port => if str_eqb port (lit "5000") then None else Some (lit "Connection refused")) (lit "End of file").
Definition cx_reqs : list (string * list str) := [("setTuningMode", [lit "on"]); ("setParameter", [lit "/Sys/Sub/blk/a"; lit "300"]); ("setParameter", [lit "/Sys/Sub/blk/a"; lit "30000000"])]%string.
Definition cx_cmds : list cmd := [CTuning true []; CSetParameter (lit "/Sys/Sub/blk/a") (lit "300"); CSetParameter (lit "/Sys/Sub/blk/a") (lit "30000000")].
Definition cx_line (r : string * list str) : list str := lit "remote-process" :: lit "localhost" :: lit "5000" :: lit (fst r) :: snd r.

Example C82_nonvacuous : nw_refuses cx_network (lit "localhost") (lit "5000") = None /\ (forall q m, holds (ev_error silent q m))
  /\ Forall (fun r => no_nul (lit (fst r)) /\ Forall no_nul (snd r) /\ fits (lit (fst r)) (snd r) /\ trimmed (lit (fst r)) (lit (fst r)) /\ Forall (fun a => trimmed a a) (snd r)) cx_reqs
  /\ Forall2 (fun r c => means (ev_need silent) (fst r) (snd r) c) cx_reqs cx_cmds
  /\ (match run demo demo_state cx_cmds with Ok (bs, _) => Some bs | _ => None end) = Some [true; true; false]
  /\ (match clients cx_network (serve (process demo silent)) demo_state (map cx_line cx_reqs) with Ok (l, _) => Some l | _ => None end)
     = Some [Exit 0 (lit "Done" ++ new_line) []; Exit 0 (lit "Done" ++ new_line) []; Exit 1 [] new_line].
Proof.
  split; [reflexivity|]. split; [intros q m; vm_compute; reflexivity|]. split.
  { assert (N : forall s, forallb (fun c => negb (char_eqb c zero)) s = true -> no_nul s).
    { intros s H Q. rewrite forallb_forall in H. pose proof (H zero Q) as K. vm_compute in K. discriminate K. }
    assert (U : forall s, str_eqb (trim s) s = true -> trimmed s s) by (intros s H; apply str_eqb_eq in H; rewrite <- H at 2; apply trim_spec).
    repeat constructor; try (apply N; vm_compute; reflexivity); try (apply U; vm_compute; reflexivity). }
  split; [repeat constructor|]. split; vm_compute; reflexivity.
Qed.

(** The same against no server, and with too few arguments (the comment of the program has commands read from its input: they are not). *)
Example C82_nonvacuous_not_asked :
  client cx_network (serve (process demo silent)) demo_state [lit "remote-process"; lit "localhost"; lit "5001"; lit "status"]
    = Ok (Exit 1 [] (lit "Connection to 'localhost:5001' failed: Connection refused" ++ new_line), demo_state)
  /\ (exists t, client cx_network (serve (process demo silent)) demo_state [lit "remote-process"; lit "localhost"; lit "5000"] = Ok (Exit 1 [] t, demo_state)).
Proof. split; [reflexivity|eexists; reflexivity]. Qed.
