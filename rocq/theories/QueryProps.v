(** C58 and C59: the commands that only ask, and the commands that always get an answer. *)
From Coq Require Import List Arith ZArith Bool Ascii String Lia.
From Verif Require Import Base BaseProofs TextModel ParamTypeModel BlackboardModel BitModel ArrayModel TreeModel TreeSpec TreeProofs CriterionModel RuleModel SyncModel DomainModel DomainSpec
  MgrModel MgrSpec MgrProofs MgrSkel ValueSpec ValueProofs ReadProofs ConfigProps Demo RemoteModel CommandModel CommandSpec CommandProofs CommandProps.
Import ListNotations.
Local Open Scope nat_scope.

(** ** C58 *)

Lemma asking_other : forall need name args c, asking name -> means need name args c -> False.
Proof.
  intros need name args c A M. destruct M; destruct A as [A|[z [A B]]]; cbn [In] in A; repeat (destruct A as [A|A]; [try discriminate A; subst z; vm_compute in B; discriminate B|]); destruct A.
Qed.

Lemma asking_import : forall name, asking name -> ~ importing name.
Proof.
  intros name A I. cbn [importing In] in I. unfold importing in I. cbn [In] in I.
  repeat (destruct I as [<-|I]; [destruct A as [A|[p [A B]]]; cbn [In] in A; repeat (destruct A as [A|A]; [try discriminate A; subst p; vm_compute in B; discriminate B|]); destruct A|]). destruct I.
Qed.

(** A command that asks for something changes nothing, whatever its arguments. *)
Theorem C58_asking : forall y ev m name args a m', asking name -> process y ev m (Request (lit name) args) = Ok (a, m') -> m' = m.
Proof.
  intros y ev m name args a m' A H. destruct (C46_only y ev m name args a m' H (asking_import name A)) as [E|[c [M _]]]; auto. exfalso. eapply asking_other; eauto.
Qed.
Print Assumptions C58_asking.

(** What is switched is what is answered: a switch that was accepted is the one that is then shown, until something else is. *)
Definition switches : list (string * string) := [("setTuningMode", "getTuningMode"); ("setValueSpace", "getValueSpace"); ("setOutputRawFormat", "getOutputRawFormat"); ("setAutoSync", "getAutoSync")]%string.

Theorem C58_switch : forall y ev m setter getter w r t m', In (setter, getter) switches -> process y ev m (Request (lit setter) (w :: r)) = Ok (Answer t true, m') ->
  process y ev m' (Request (lit getter) []) = Ok (Answer w true, m').
Proof.
  intros y ev m setter getter w r t m' I H.
  assert (forall need name args k, means need name args k -> find_entry (lit name) <> None) as Kn by (intros need name args k M; destruct (means_plan _ _ _ _ M) as [e [F _]]; congruence).
  assert (exists c, means (ev_need ev) setter (w :: r) c /\ step y m c = Ok (true, m')) as [c [M S]].
  { unfold process in H. cbn [rq_command rq_args] in H. destruct (find_entry (lit setter)) as [e|] eqn:F; [|discriminate].
    assert (In e table /\ en_name e = lit setter) as [J E] by (unfold find_entry in F; apply find_some in F as [F1 F2]; apply str_eqb_eq in F2; auto).
    assert (str_eqb (lit setter) (lit "help") = false) as Nh by (cbn [switches In] in I; repeat (destruct I as [I|I]; [injection I as <- <-; reflexivity|]); destruct I). rewrite Nh in H.
    destruct (Nat.ltb_spec (List.length (w :: r)) (en_min e)) as [L|L]; [discriminate|]. destruct (en_plan e (ev_need ev) (w :: r)) as [ac| | |] eqn:P; try discriminate. cbn [obind] in H.
    pose proof (plan_means _ _ _ _ J L P) as Q.
    assert ((exists k, ac = ADo k) \/ ac = AUsage) as [[k ->]| ->].
    { clear - I F P. cbn [switches In] in I. repeat (destruct I as [I|I]; [injection I as <- <-; vm_compute in F; injection F as <-; cbn in P;
        repeat match type of P with context [if ?b then _ else _] => destruct b end; injection P as <-; eauto|]). destruct I. }
    - cbn [execute planned] in *. destruct Q as [nm [Q1 Q2]]. assert (nm = setter) as -> by (apply lit_inj; congruence). unfold done in H.
      destruct (step y m k) as [[[|] m1]| | |] eqn:S; cbn [obind fst snd] in H; try discriminate. injection H as <- <-. eauto.
    - cbn [execute obind fst snd] in H. discriminate. }
  cbn [switches In] in I. repeat (destruct I as [I|I]; [injection I as <- <-|]); try destruct I; inversion M; subst; cbn [step] in S.
  all: try (injection S as <-; vm_compute; reflexivity).
  all: try (unfold set_tuning in S; destruct (Bool.eqb _ _); [discriminate|]; destruct (_ && _); [discriminate|]; cbv iota in S).
  - injection S as <-. vm_compute. reflexivity.
  - destruct (do_apply y true (ev_need ev) m) as [m1| | |]; cbn [obind] in S; try discriminate. injection S as <-. vm_compute. reflexivity.
  - unfold set_autosync in S. cbn [andb] in S. destruct (negb (mg_autosync m)); [|injection S as <-; vm_compute; reflexivity].
    destruct (do_sync y m) as [[|] m1]; [injection S as <-; vm_compute; reflexivity|discriminate].
Qed.
Print Assumptions C58_switch.

Example C58_nonvacuous : asking "getParameter" /\ asking "listDomains" /\ ~ asking "setParameter"
  /\ (match process demo silent demo_state (Request (lit "setTuningMode") [lit "on"]) with
      | Ok (a, m') => Some (a, match process demo silent m' (Request (lit "getTuningMode") []) with Ok (b, _) => Some b | _ => None end)
      | _ => None end) = Some (Answer (lit "Done") true, Some (Answer (lit "on") true)).
Proof.
  split; [right; exists "get"%string; split; [cbn; tauto|reflexivity]|]. split; [right; exists "list"%string; split; [cbn; tauto|reflexivity]|]. split; [|vm_compute; reflexivity].
  intros [A|[p [A B]]]; cbn [In] in A; repeat (destruct A as [A|A]; [try discriminate A; subst p; vm_compute in B; discriminate B|]); destruct A.
Qed.

(** ** C59 *)

(** Every request gets an answer: only the rule of a configuration may stop the program, and only four cases are left aside. *)
Theorem C59_answered_partial : forall y ev m name args, system_ok y -> reachable_typed y m -> all_printable y (mg_fmt m) ->
  (forall i k, exists b k', ev_import ev i k = Ok (b, k')) ->
  name <> lit "setElementBytes" -> (name = lit "setSequenceAwareness" -> List.length args <> 1) ->
  (exists a m', process y ev m (Request name args) = Ok (a, m')) \/ (name = lit "setRule" /\ process y ev m (Request name args) = Abort).
Proof.
  intros y ev m name args Sy R Pr Im NB SA. unfold process. cbn [rq_command rq_args]. destruct (find_entry name) as [e|] eqn:F; [|eauto].
  destruct (str_eqb name (lit "help")); [eauto|]. destruct (Nat.ltb_spec (List.length args) (en_min e)) as [L|L]; [eauto|].
  assert (In e table /\ en_name e = name) as [I E] by (unfold find_entry in F; apply find_some in F as [F1 F2]; apply str_eqb_eq in F2; auto).
  assert (name = lit "setSequenceAwareness" -> 2 <= List.length args) as S2.
  { intros Q. specialize (SA Q). rewrite Q in F. assert (en_min e = 1) as M1 by (vm_compute in F; injection F as <-; reflexivity). lia. }
  destruct (plan_ok e (ev_need ev) args I L) as [ac P]; [intros Q; apply S2; congruence|]. rewrite P. cbn [obind].
  pose proof (reachable_ok y m Sy (typed_reachable y m R)) as [K _].
  assert (forall o, (exists b k, o = Ok (b, k)) -> exists x, done o = Ok x) as Dn by (intros o [b [k ->]]; cbn; eauto).
  assert (forall x, execute y ev ac m = Ok x -> (exists a m', (do x <- execute y ev ac m; Ok (match fst x with StDone => Answer (lit "Done") true | StSucceeded t => Answer t true
     | StUsage => Answer (usage e) false | StFailed => Answer (ev_error ev (Request name args) m) false end, snd x)) = Ok (a, m'))) as G by (intros x ->; cbn; eauto).
  pose proof (plan_means e (ev_need ev) args ac I L P) as Q.
  destruct ac as [c|q|nm l|i|p vs|]; cbn [execute planned] in *.
  - destruct (step_ok y m c Sy K) as [[b [m' [S _]]]|[S [d [n [t ->]]]]].
    + left. destruct (Dn (step y m c)) as [x X]; eauto.
    + right. rewrite S. cbn. split; auto. destruct Q as [nm [H1 H2]]. assert (nm = "setRule"%string) as -> by (inversion H2; auto). rewrite <- E. exact H1.
  - left. destruct (ask_total y ev q m Sy R Pr) as [o O]. rewrite O. cbn. eauto.
  - left. eauto.
  - left. assert (forall k, exists x, done (ev_import ev k m) = Ok x) as Di by (intros k; apply Dn, Im).
    destruct i as [src st fl|src ov st fl|path xml]; [destruct (Di (IDomains src st fl)) as [x X]; eauto|destruct (Di (IDomain src ov st fl)) as [x X]; eauto|].
    destruct (mg_tuning m); [|cbn; eauto]. destruct (locate (sy_root y) path); [|cbn; eauto]. destruct (Di (IElement path xml)) as [x X]. eauto.
  - exfalso. apply NB. congruence.
  - left. cbn. eauto.
Qed.
Print Assumptions C59_answered_partial.

Example C59_nonvacuous : system_ok demo /\ reachable_typed demo demo_tuned /\ all_printable demo (mg_fmt demo_tuned)
  /\ (forall i k, exists b k', ev_import silent i k = Ok (b, k'))
  /\ (match process demo silent demo_tuned (Request (lit "getParameter") [lit "/Sys/Sub/blk/a"]) with Ok (a, _) => Some a | _ => None end) = Some (Answer (lit "200") true).
Proof.
  split; [apply demo_ok|]. split; [exact demo_tuned_typed|]. split; [|split; [intros i k; do 2 eexists; reflexivity|vm_compute; reflexivity]].
  intros q e _. assert (f_raw (mg_fmt demo_tuned) = false) as Z by (vm_compute; reflexivity). revert Z. generalize (mg_fmt demo_tuned). intros f Z.
  unfold kind_printable, printable. destruct (e_kind e); try exact I; intros X; congruence.
Qed.

(** A framework with an enumeration of 32 bits: in raw hexadecimal, asking for its value is undefined behaviour. *)
Definition enum_system : system :=
  Sys (Elem (lit "Sys") KdSystem [Elem (lit "Sub") KdSubsystem [Elem (lit "e") (KdParam (PEnum 4 [(lit "Zero", 0%Z); (lit "One", 1%Z)])) []]])
    (fun p => match p with [0] => Some 1 | _ => None end) (fun _ _ => true).
Definition enum_start : mgr := Mgr (Domains [] [] 0) (initial_blackboard (sy_root enum_system)) false true true false false [] [].
Definition enum_shown : mgr := match run enum_system enum_start [CValueSpace true; COutputFormat true] with Ok (_, m) => m | _ => enum_start end.

Lemma enum_ok : system_ok enum_system.
Proof.
  split; [split; [vm_compute; reflexivity|apply check_fields_ok; vm_compute; reflexivity]|].
  intros p q s t Hp Hq [r E]. cbn [sy_own enum_system] in *. destruct p as [|[|] [|]]; try discriminate. subst q. destruct r; [auto|discriminate].
Qed.

Lemma enum_typed : reachable_typed enum_system enum_shown.
Proof.
  exists enum_start, [CValueSpace true; COutputFormat true], [true; true]. split; [|split; [|split; [repeat (constructor; [split; [exact I|discriminate]|]); constructor|vm_compute; reflexivity]]].
  - exists true, [], (Domains [] [] 0), (initial_blackboard (sy_root enum_system)). split; [|vm_compute; reflexivity].
    split; [intros i k H; destruct i; discriminate|]. split; [apply no_domains_ok|]. split; [intros d c r []|reflexivity].
  - intros q e max Hq E. apply zero_valued; auto. rewrite E. exact I.
Qed.

Theorem C59_enumeration_refuted : exists y ev m path, system_ok y /\ reachable_typed y m /\ process y ev m (Request (lit "getParameter") [path]) = UB.
Proof. exists enum_system, silent, enum_shown, (lit "/Sys/Sub/e"). split; [exact enum_ok|]. split; [exact enum_typed|vm_compute; reflexivity]. Qed.
Print Assumptions C59_enumeration_refuted.
