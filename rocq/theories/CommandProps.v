(** The remote commands: what they do with their arguments (C46), setElementBytes (C45). *)
From Coq Require Import List Arith ZArith Bool Ascii String Lia.
From Verif Require Import Base BaseProofs TextModel BlackboardModel TreeModel CriterionModel RuleModel SyncModel DomainModel MgrModel RemoteModel RemoteSpec RemoteProofs RemoteProps
  CommandModel CommandSpec MgrSpec ValueSpec Demo ConfigProps.
Import ListNotations.
Local Open Scope nat_scope.

Ltac entries := repeat match goal with
  | H : In _ _ |- _ => destruct H as [<-|H]; [|]
  | H : False |- _ => destruct H
  end.

Lemma find_known : forall n name, mandatory name n -> exists e, find_entry name = Some e /\ en_name e = name /\ en_min e <= n
  /\ (name <> lit "setSequenceAwareness" -> en_min e = n).
Proof.
  intros n name H. unfold mandatory in H. do 5 (destruct n as [|n]; [cbn [commands_with map] in H; repeat (destruct H as [<-|H]; [eexists; split; [vm_compute; reflexivity|]; split; [reflexivity|]; split; [cbn; lia|]; intros; cbn; congruence|]); destruct H|]).
  destruct H.
Qed.

Lemma find_unknown : forall name, (forall n, ~ mandatory name n) -> find_entry name = None.
Proof.
  intros name H. destruct (find_entry name) as [e|] eqn:E; auto. exfalso. unfold find_entry in E. apply find_some in E. destruct E as [I Q]. apply str_eqb_eq in Q.
  subst name. revert H. cbn [table In] in I. unfold mandatory.
  repeat (destruct I as [<-|I]; [intros H; first [apply (H 0); cbn; tauto|apply (H 1); cbn; tauto|apply (H 2); cbn; tauto|apply (H 3); cbn; tauto|apply (H 4); cbn; tauto]|]). destruct I.
Qed.

(** ** C46 *)

Definition not_found : str := lit "Command not found!" ++ ascii_of_nat 10 :: lit "Use ""help"" to show available commands".

(** A command that does not exist is refused, and nothing happens. *)
Theorem C46_unknown : forall y ev m name args, (forall n, ~ mandatory name n) -> process y ev m (Request name args) = Ok (Answer not_found false, m).
Proof. intros y ev m name args H. unfold process. cbn [rq_command]. rewrite (find_unknown name H). auto. Qed.
Print Assumptions C46_unknown.

(** With too few arguments the answer is an error with the usage, and nothing happens.
    Partial: setSequenceAwareness, below. *)
Theorem C46_too_few_partial : forall y ev m name args n, mandatory name n -> List.length args < n -> name <> lit "setSequenceAwareness" ->
  exists help, process y ev m (Request name args) = Ok (Answer (lit "Not enough arguments supplied" ++ ascii_of_nat 10 :: lit "Usage:" ++ ascii_of_nat 10 :: name ++ lit " " ++ help) false, m).
Proof.
  intros y ev m name args n H L N. destruct (find_known n name H) as [e [F [E [_ M]]]]. unfold process. cbn [rq_command rq_args]. rewrite F.
  destruct (str_eqb name (lit "help")) eqn:Eh.
  { exfalso. apply str_eqb_eq in Eh. subst name. rewrite Eh in *. vm_compute in F. inversion F as [Fe]. rewrite <- Fe in M. cbn [en_min] in M. specialize (M ltac:(discriminate)). subst n. lia. }
  rewrite (M N). replace (List.length args <? n) with true by (symmetry; apply Nat.ltb_lt; auto). exists (en_help e). unfold usage. rewrite E. auto.
Qed.
Print Assumptions C46_too_few_partial.

Lemma arg_in : forall args i, i < List.length args -> exists a, arg args i = Ok a.
Proof. intros args i H. unfold arg. destruct (nth_error args i) eqn:E; eauto. apply nth_error_None in E. lia. Qed.

Lemma pack_in : forall args i, i <= List.length args -> exists a, pack args i = Ok a.
Proof. intros args i H. unfold pack. rewrite (proj2 (Nat.leb_le _ _) H). eauto. Qed.

Lemma plan_ok : forall e need args, In e table -> en_min e <= List.length args -> (en_name e = lit "setSequenceAwareness" -> 2 <= List.length args) ->
  exists a, en_plan e need args = Ok a.
Proof.
  intros e need args I L S. cbn [table In] in I.
  repeat (destruct I as [<-|I]; [cbn [other en_plan en_min en_name] in *; try specialize (S eq_refl);
    unfold no_arg, one_arg, two_args, three_args, switch, plan_list_criteria, plan_import_domain;
    repeat match goal with
    | |- context [if ?x <? List.length args then _ else _] => destruct (Nat.ltb_spec x (List.length args)); cbn [obind]
    | |- context [if List.length args =? ?x then _ else _] => destruct (Nat.eqb_spec (List.length args) x); cbn [obind]
    | |- context [if ?b then _ else _] => destruct b; cbn [obind]
    | |- context [arg args ?i] => destruct (arg_in args i) as [? ->]; [lia|cbn [obind]]
    | |- context [pack args ?i] => destruct (pack_in args i) as [? ->]; [lia|cbn [obind]]
    end; eauto|]).
  destruct I.
Qed.

(** With the mandatory arguments, whatever they are and whatever follows them, no other argument is read. *)
Theorem C46_supplied : forall name n args need e, mandatory name n -> n <= List.length args -> find_entry name = Some e -> exists a, en_plan e need args = Ok a.
Proof.
  intros name n args need e H L F. destruct (find_known n name H) as [e' [F' [E [M M']]]]. assert (e' = e) by congruence. subst e'.
  assert (In e table) as I by (unfold find_entry in F; apply find_some in F; apply F). apply plan_ok; auto; [lia|].
  intros S. rewrite E in S. subst name. rewrite S in H. unfold mandatory in H. do 2 (destruct n as [|n]; [exfalso; vm_compute in H; repeat (destruct H as [H|H]; [discriminate H|]); destruct H|]). lia.
Qed.
Print Assumptions C46_supplied.

Definition silent : environment := Env [] (fun _ _ _ => None) (fun _ _ => []) (fun _ m => Ok (false, m)).

(** setSequenceAwareness with one argument reads a second one. *)
Theorem C46_argument_refuted : exists y ev m name args n, system_ok y /\ reachable_typed y m /\ mandatory name n /\ List.length args < n
  /\ process y ev m (Request name args) = UB.
Proof.
  exists demo, silent, demo_tuned, (lit "setSequenceAwareness"), [lit "D1"], 2.
  split; [apply demo_ok|]. split; [exact demo_tuned_typed|]. split; [vm_compute; tauto|]. split; [simpl; lia|]. vm_compute. reflexivity.
Qed.
Print Assumptions C46_argument_refuted.

Lemma words_join : forall l s, words l s -> l <> [] /\ join (lit " ") l = s.
Proof.
  induction 1 as [w|w l s H [N IH]]; [split; [discriminate|apply TextProofs.join_single]|]. split; [discriminate|]. destruct l as [|x l]; [congruence|]. rewrite TextProofs.join_cons2, IH. auto.
Qed.

Fixpoint position (name : str) (l : list entry) : nat :=
  match l with [] => 0 | e :: r => if str_eqb (en_name e) name then 0 else S (position name r) end.

Lemma find_nth : forall k e, nth_error table k = Some e -> find_entry (en_name e) = Some e.
Proof.
  assert (forall l k e, nth_error l k = Some e -> position (en_name e) l = k -> find (fun x => str_eqb (en_name x) (en_name e)) l = Some e) as G.
  { induction l as [|x l IH]; intros k e H P; [destruct k; discriminate|]. cbn [position find] in *. destruct (str_eqb (en_name x) (en_name e)); [subst k; simpl in H; congruence|]. destruct k; [discriminate|]. apply (IH k); [exact H|lia]. }
  intros k e H. apply (G table k e H). assert (forallb (fun k => match nth_error table k with Some e => position (en_name e) table =? k | None => true end) (seq 0 (List.length table)) = true) as C by (vm_compute; reflexivity).
  rewrite forallb_forall in C. specialize (C k). rewrite H in C. apply Nat.eqb_eq, C, in_seq. split; [lia|]. apply nth_error_Some. congruence.
Qed.

Lemma means_plan : forall need name args c, means need name args c -> exists e, find_entry (lit name) = Some e /\ en_min e <= List.length args
  /\ en_plan e need args = Ok (ADo c) /\ lit name <> lit "help" /\ en_name e = lit name.
Proof.
  intros need name args c H. destruct H;
    try match goal with H : words ?l _ |- _ => destruct (words_join _ _ H) as [N J]; destruct l as [|? ?]; [congruence|] end;
    match goal with |- exists e, find_entry ?n = _ /\ _ => let k := eval vm_compute in (position n table) in let t := eval cbv [nth_error table other] in (nth_error table k) in
      match t with Some ?e => exists e; split; [exact (find_nth k e eq_refl)|] end end;
    (split; [cbn [en_min List.length]; lia|]); (split; [|split; [discriminate|reflexivity]]); cbn [en_plan]; unfold no_arg, one_arg, two_args, three_args, switch, pack;
    cbn [arg nth_error obind skipn List.length Nat.leb]; rewrite ?J; auto.
Qed.

(** A command that means something does it, and the answer tells whether it succeeded. *)
Theorem C46_effect : forall y ev m name args c b m', means (ev_need ev) name args c -> step y m c = Ok (b, m') ->
  exists text, process y ev m (Request (lit name) args) = Ok (Answer text b, m') /\ (b = true -> text = lit "Done").
Proof.
  intros y ev m name args c b m' H S. destruct (means_plan _ _ _ _ H) as [e [F [L [P [N _]]]]]. unfold process. cbn [rq_command rq_args]. rewrite F.
  rewrite (proj2 (str_eqb_neq _ _) N). replace (List.length args <? en_min e) with false by (symmetry; apply Nat.ltb_ge; auto). rewrite P. cbn [obind execute]. unfold done. rewrite S.
  cbn [obind fst snd]. destruct b; eexists; (split; [reflexivity|]); [reflexivity|discriminate].
Qed.
Print Assumptions C46_effect.

Lemma arg_ok : forall args i a, arg args i = Ok a -> nth_error args i = Some a.
Proof. intros args i a H. unfold arg in H. destruct (nth_error args i); [congruence|discriminate]. Qed.

Lemma join_words : forall x l, words (x :: l) (join (lit " ") (x :: l)).
Proof. intros x l. revert x. induction l as [|y l IH]; intros x; [rewrite TextProofs.join_single; constructor|]. rewrite TextProofs.join_cons2. constructor. auto. Qed.

Definition planned (need : list nat) (e : entry) (args : list str) (a : action) : Prop :=
  match a with
  | ADo c => exists name, en_name e = lit name /\ means need name args c
  | AImport _ => exists name, en_name e = lit name /\ importing name
  | ABytes _ _ => en_name e = lit "setElementBytes"
  | _ => True
  end.

Lemma plan_means : forall e need args a, In e table -> en_min e <= List.length args -> en_plan e need args = Ok a -> planned need e args a.
Proof.
  intros e need args a I L P. cbn [table In] in I.
  repeat (destruct I as [<-|I]; [cbn [other en_plan en_min] in *; unfold no_arg, one_arg, two_args, three_args, switch, plan_list_criteria, plan_import_domain, pack in P;
    repeat (match type of P with
    | context [arg args ?i] => destruct (arg args i) eqn:?; cbn [obind] in P; try discriminate P
    | context [str_eqb ?x ?z] => destruct (str_eqb x z) eqn:?
    | context [if ?b then _ else _] => destruct b eqn:?
    end; cbn [obind orb] in P; try discriminate P); injection P as <-; cbn [planned]; try exact Logic.I; try reflexivity;
    repeat match goal with H : arg _ _ = Ok _ |- _ => apply arg_ok in H | H : str_eqb _ _ = true |- _ => apply str_eqb_eq in H; subst end;
    (eexists; split; [cbn [en_name]; reflexivity|]);
    first [ vm_compute; tauto
          | do 5 (try destruct args as [|? args]); cbn [nth_error List.length] in *; try lia; try discriminate;
            repeat match goal with H : Some _ = Some _ |- _ => injection H as -> end; cbn [skipn]; constructor; try apply join_words ]|]).
  destruct I.
Qed.

Lemma lit_inj : forall a b, lit a = lit b -> a = b.
Proof. unfold lit. induction a as [|x a IH]; intros [|y b] H; simpl in H; try discriminate; auto. injection H as -> H. f_equal. auto. Qed.

(** What a request may change: what its command means, or an import; nothing otherwise. *)
Theorem C46_only : forall y ev m name args a m', process y ev m (Request (lit name) args) = Ok (a, m') -> ~ importing name ->
  m' = m \/ exists c, means (ev_need ev) name args c /\ step y m c = Ok (an_ok a, m').
Proof.
  intros y ev m name args a m' H NI. unfold process in H. cbn [rq_command rq_args] in H. destruct (find_entry (lit name)) as [e|] eqn:F; [|left; congruence].
  destruct (str_eqb (lit name) (lit "help")); [left; congruence|]. destruct (Nat.ltb_spec (List.length args) (en_min e)) as [L|L]; [left; congruence|].
  destruct (en_plan e (ev_need ev) args) as [ac| | |] eqn:P; try discriminate. cbn [obind] in H.
  assert (In e table /\ en_name e = lit name) as [I E] by (unfold find_entry in F; apply find_some in F as [F1 F2]; apply str_eqb_eq in F2; auto).
  pose proof (plan_means e _ _ _ I L P) as M. destruct (execute y ev ac m) as [[st m2]| | |] eqn:X; try discriminate. cbn [obind fst snd] in H. injection H as Ha Hm. subst m2.
  destruct ac as [c|q|n l|i|p vs|]; cbn [execute planned] in *.
  - right. destruct M as [n [En Hn]]. rewrite E in En. apply lit_inj in En. subst n. exists c. split; auto. unfold done in X. destruct (step y m c) as [[b m3]| | |] eqn:S; try discriminate. cbn [obind fst snd] in X.
    injection X as X1 X2. subst m3 st. f_equal. f_equal. subst a. destruct b; reflexivity.
  - left. destruct (ask y ev q m); try discriminate. cbn [obind] in X. congruence.
  - left. congruence.
  - exfalso. destruct M as [n [En Hn]]. rewrite E in En. apply lit_inj in En. subst n. auto.
  - left. unfold set_element_bytes in X. destruct (mg_tuning m); [|congruence]. destruct (locate (sy_root y) p); [|congruence]. destruct vs as [|v vs].
    + exfalso. assert (2 <= List.length args) as L2 by (cbn [table In] in I; repeat (destruct I as [<-|I]; [first [exfalso; vm_compute in M; discriminate M|exact L]|]); destruct I).
      assert (e = Entry (lit "setElementBytes") 2 (lit "<elem path> <values>") (fun _ args => do p <- arg args 0; Ok (ABytes p (skipn 1 args)))) as Ee.
      { cbn [table In] in I. repeat (destruct I as [<-|I]; [first [exfalso; vm_compute in M; discriminate M|reflexivity]|]). destruct I. }
      subst e. cbn [en_plan] in P. destruct (arg args 0); try discriminate. cbn [obind] in P. injection P as _ P. destruct args as [|? [|? ?]]; cbn [List.length skipn] in *; try lia. discriminate.
    + destruct (convertTo (CType false 1) v); [discriminate|congruence].
  - left. congruence.
Qed.
Print Assumptions C46_only.

(** A connection: the requests of the client have, in order, the effect of the commands that they mean; each is answered. *)
Theorem C46_session : forall y ev reqs cmds m bs m',
  Forall (fun r => no_nul (lit (fst r)) /\ Forall no_nul (snd r) /\ fits (lit (fst r)) (snd r) /\ trimmed (lit (fst r)) (lit (fst r)) /\ Forall (fun a => trimmed a a) (snd r)) reqs ->
  Forall2 (fun r c => means (ev_need ev) (fst r) (snd r) c) reqs cmds -> run y m cmds = Ok (bs, m') ->
  exists answers, serve (process y ev) m (flat_map (fun r => send_request (make_request (lit (fst r)) (snd r))) reqs) = Ok (m', flat_map send_answer answers)
    /\ map an_ok answers = bs.
Proof.
  intros y ev reqs cmds m bs m' F G R.
  assert (exists answers, process_all (process y ev) m (map (fun r => Request (lit (fst r)) (snd r)) reqs) = Ok (answers, m') /\ map an_ok answers = bs) as [answers [P B]].
  { clear F. revert m bs m' R. induction G as [|r c reqs cmds M G IH]; intros m bs m' R; cbn [run map process_all] in *; [injection R as <- <-; exists []; auto|].
    destruct (step y m c) as [[b m1]| | |] eqn:S; try discriminate. cbn [obind fst snd] in R. destruct (run y m1 cmds) as [[bs1 m2]| | |] eqn:R1; try discriminate. cbn [obind fst snd] in R.
    injection R as <- <-. destruct (C46_effect y ev m _ _ _ _ _ M S) as [t [E _]]. destruct (IH _ _ _ R1) as [al [A1 A2]]. rewrite E. cbn [obind fst snd]. rewrite A1. cbn [obind fst snd].
    exists (Answer t b :: al). split; auto. cbn [map an_ok]. rewrite A2. auto. }
  exists answers. split; auto. pose proof (C34_session mgr (process y ev) (map (fun r => (lit (fst r), snd r)) reqs) (map (fun r => Request (lit (fst r)) (snd r)) reqs) m answers m') as S.
  assert (flat_map (fun r => send_request (make_request (fst r) (snd r))) (map (fun r => (lit (fst r), snd r)) reqs) = flat_map (fun r => send_request (make_request (lit (fst r)) (snd r))) reqs) as Ef
    by (clear; induction reqs as [|r l IH]; cbn [map flat_map fst snd]; congruence).
  rewrite Ef in S. apply S; auto; clear - F.
  - induction F as [|r l [H1 [H2 [H3 _]]] F IH]; cbn [map]; constructor; auto.
  - induction F as [|r l [H1 [H2 [H3 [H4 H5]]]] F IH]; cbn [map]; constructor; auto. cbn [fst snd rq_command rq_args]. split; auto. clear - H5. induction H5; constructor; auto.
Qed.
Print Assumptions C46_session.

Example C46_nonvacuous :
  let path := lit "/Sys/Sub/blk/a" in
  let reqs := [("setTuningMode", [lit "on"]); ("setParameter", [path; lit "300"]); ("setRule", [lit "D1"; lit "Call"; lit "All{Mode"; lit "Is"; lit "Other}"]); ("createDomain", [lit "D1"]);
               ("setTuningMode", [lit "off"])]%string in
  let cmds := [CTuning true []; CSetParameter path (lit "300"); CSetRule (lit "D1") (lit "Call") (lit "All{Mode Is Other}"); CCreateDomain (lit "D1"); CTuning false []] in
  Forall2 (fun r c => means [] (fst r) (snd r) c) reqs cmds
  /\ (match run demo demo_state cmds with Ok (bs, _) => bs | _ => [] end) = [true; true; false; false; true]
  /\ (match serve (process demo silent) demo_state (flat_map (fun r => send_request (make_request (lit (fst r)) (snd r))) reqs) with Ok (m, out) => Some (mg_tuning m, out) | _ => None end)
     = Some (false, flat_map send_answer [Answer (lit "Done") true; Answer (lit "Done") true; Answer [] false; Answer [] false; Answer (lit "Done") true]).
Proof.
  cbv zeta. split; [|split; vm_compute; reflexivity].
  repeat (constructor; [cbn [fst snd]; try constructor|]); [| |constructor]; [apply words_one|]. change (lit "All{Mode Is Other}") with (lit "All{Mode" ++ lit " " ++ (lit "Is" ++ lit " " ++ lit "Other}")). repeat constructor.
Qed.

Example C46_mandatory_nonvacuous : mandatory (lit "setRule") 3 /\ (forall n, ~ mandatory (lit "format") n)
  /\ process demo silent demo_tuned (Request (lit "setRule") [lit "D1"; lit "Call"]) =
     Ok (Answer (lit "Not enough arguments supplied" ++ ascii_of_nat 10 :: lit "Usage:" ++ ascii_of_nat 10 :: lit "setRule <domain> <configuration> <rule>") false, demo_tuned).
Proof.
  split; [vm_compute; tauto|]. split; [|vm_compute; reflexivity].
  intros n H. unfold mandatory in H. do 5 (destruct n as [|n]; [vm_compute in H; repeat (destruct H as [H|H]; [discriminate H|]); destruct H|]). destruct H.
Qed.

(** ** C45 *)

Definition bytes_entry : entry := Entry (lit "setElementBytes") 2 (lit "<elem path> <values>") (fun _ args => do p <- arg args 0; Ok (ABytes p (skipn 1 args))).

Lemma find_bytes : find_entry (lit "setElementBytes") = Some bytes_entry.
Proof. let k := eval vm_compute in (position (lit "setElementBytes") table) in exact (find_nth k bytes_entry eq_refl). Qed.

(** setElementBytes never sets anything. *)
Theorem C45_never_sets : forall y ev m args a m', process y ev m (Request (lit "setElementBytes") args) = Ok (a, m') -> m' = m /\ an_ok a = false.
Proof.
  intros y ev m args a m' H. assert (m' = m) as ->.
  { destruct (C46_only y ev m "setElementBytes" args a m' H) as [E|[c [M _]]]; auto; [vm_compute; intuition discriminate|inversion M]. }
  split; auto. unfold process in H. cbn [rq_command rq_args] in H.
  pose proof find_bytes as F. unfold bytes_entry in F.
  rewrite F in H. change (str_eqb (lit "setElementBytes") (lit "help")) with false in H. cbv iota in H. cbn [en_min en_plan] in H. destruct (Nat.ltb_spec (List.length args) 2) as [L|L]; [injection H as <-; auto|].
  destruct args as [|p [|v vs]]; cbn [List.length] in L; try lia. cbn [arg nth_error obind skipn execute] in H. unfold set_element_bytes in H. destruct (mg_tuning m); [|injection H as <-; auto].
  destruct (locate (sy_root y) p); [|injection H as <-; auto]. destruct (convertTo (CType false 1) v); [discriminate|]. injection H as <-; auto.
Qed.
Print Assumptions C45_never_sets.

(** In tuning mode, on an element that exists, with a first value that is a byte: undefined behaviour, whatever follows. *)
Theorem C45_undefined : forall y ev m path p v vs b, mg_tuning m = true -> locate (sy_root y) path = Some p -> convertTo (CType false 1) v = Some b ->
  process y ev m (Request (lit "setElementBytes") (path :: v :: vs)) = UB.
Proof.
  intros y ev m path p v vs b T Lo C. unfold process. cbn [rq_command rq_args].
  pose proof find_bytes as F. unfold bytes_entry in F.
  rewrite F. change (str_eqb (lit "setElementBytes") (lit "help")) with false. cbv iota. cbn [en_min en_plan List.length Nat.ltb Nat.leb arg nth_error obind skipn execute].
  unfold set_element_bytes. rewrite T, Lo, C. auto.
Qed.
Print Assumptions C45_undefined.

(** With as many bytes as the size of the element. *)
Theorem C45_set_bytes_refuted : exists y ev m path p e values, system_ok y /\ reachable_typed y m /\ mg_tuning m = true /\ locate (sy_root y) path = Some p
  /\ elem_at (sy_root y) p = Some e /\ List.length values = footprint e /\ Forall (fun v => exists b, convertTo (CType false 1) v = Some b) values
  /\ process y ev m (Request (lit "setElementBytes") (path :: values)) = UB.
Proof.
  exists demo, silent, demo_tuned, (lit "/Sys/Sub/blk/a"), [0; 0; 0]. eexists. exists [lit "0x01"; lit "2"]. split; [apply demo_ok|]. split; [exact demo_tuned_typed|].
  split; [vm_compute; reflexivity|]. split; [vm_compute; reflexivity|]. split; [vm_compute; reflexivity|]. split; [vm_compute; reflexivity|].
  split; [repeat constructor; eexists; vm_compute; reflexivity|]. vm_compute. reflexivity.
Qed.
Print Assumptions C45_set_bytes_refuted.
