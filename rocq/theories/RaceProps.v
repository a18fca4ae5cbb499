(** C84: criteria that change while configurations are applied. *)
From Coq Require Import List Arith ZArith Bool Ascii String Lia.
From Verif Require Import Base BaseProofs CriterionModel RuleModel RuleSpec RuleProofs BlackboardModel TreeModel TreeSpec TreeProofs MemSpec SyncModel
  DomainModel DomainSpec DomainApply MgrModel MgrSpec MgrSkel ApplySpec ApplyProofs RaceModel RaceSpec RaceProofs ValueSpec ValueProofs Demo ApplyProps.
Import ListNotations.
Local Open Scope nat_scope.

(** In the examples: the system of Demo.v with other rules.  The last command changes the mode from none to Call, to be applied. *)
Definition race_setup (r1 r3 : str) : list cmd := demo_cmds ++
  [CTuning true []; CSetRule (lit "D1") (lit "Call") r1; CSetRule (lit "D2") (lit "On") r3].
Definition race_cmds (r1 r3 : str) : list cmd := race_setup r1 r3 ++ [CTuning false []; CCriterion 0 1].

(** A rule on both criteria; a rule that holds in both modes; one test of the mode in each domain. *)
Definition rt_cmds := race_cmds (lit "All{Mode Is Call, Devices Excludes Ear, Devices Includes HS}") (lit "Any{Devices Includes HS}").
Definition rm_cmds := race_cmds (lit "Any{Mode Is Normal, Mode Is Call}") (lit "Any{Devices Includes HS}").
Definition rx_cmds := race_cmds (lit "All{Mode Is Call}") (lit "Any{Mode Is Normal}").
Definition rt := demo_after demo rt_cmds.
Definition rm := demo_after demo rm_cmds.
Definition rx := demo_after demo rx_cmds.

(** The mode becomes Normal after the first look; the headset is plugged after the second. *)
Definition to_normal (m : mgr) : moments := fun t => match t with 0 => mg_crits m | _ => crits_set (mg_crits m) 0 2 end.
Definition to_headset (m : mgr) : moments :=
  fun t => match t with 0 => mg_crits m | 1 => crits_set (mg_crits m) 0 2 | _ => crits_set (crits_set (mg_crits m) 0 2) 1 2 end.

Lemma rt_reachable : reachable demo rt.
Proof. exists demo_start, rt_cmds, (repeat true 25). split; [exact demo_started|]. vm_compute. reflexivity. Qed.
Lemma rm_reachable : reachable demo rm.
Proof. exists demo_start, rm_cmds, (repeat true 25). split; [exact demo_started|]. vm_compute. reflexivity. Qed.
Lemma rx_reachable : reachable demo rx.
Proof. exists demo_start, rx_cmds, (repeat true 25). split; [exact demo_started|]. vm_compute. reflexivity. Qed.

Lemma to_normal_course : forall m, course (mg_crits m) (to_normal m).
Proof. intros m. split; [constructor|]. intros [|t]; simpl; [apply ch_set|]; constructor. Qed.
Lemma to_headset_course : forall m, course (mg_crits m) (to_headset m).
Proof. intros m. split; [constructor|]. intros [|[|t]]; simpl; [apply ch_set|apply ch_set|]; constructor. Qed.
Lemma to_normal_only : forall m, only_changes 0 (to_normal m).
Proof. intros m i t u N. assert (forall w, nth_error (to_normal m w) i = nth_error (mg_crits m) i) as E; [|rewrite !E; auto].
  intros [|w]; auto. simpl. rewrite CriterionProofs.crits_set_nth. destruct i; [congruence|auto]. Qed.

Definition lasts (o : outcome (mgr * nat)) : option (list (option nat) * nat) :=
  match o with Ok (m, n) => Some (map dm_last (ds_list (mg_doms m)), n) | _ => None end.

(** ** The criteria do not change *)

(** Without changes, the application and the end of the tuning mode are those of a single thread. *)
Theorem C84_quiet : forall y m st need m', system_ok y -> reachable y m -> (forall t, st t = mg_crits m) ->
  (step y m (CApply need) = Ok (true, m') -> exists n, apply_during y st need m = Ok (m', n))
  /\ (mg_tuning m = true -> step y m (CTuning false need) = Ok (true, m') -> exists n, leave_during y st need m = Ok (m', n)).
Proof.
  intros y m st need m' Sy R Q. split.
  - intros H. cbn [step] in H. unfold apply_configurations in H. unfold apply_during. destruct (mg_tuning m); [inversion H; subst; eauto|].
    destruct (do_during_quiet y st false need m Q) as [n E]. exists n. rewrite E. destruct (do_apply y false need m) as [x| | |]; try discriminate. cbn [obind] in H. inversion H; subst. auto.
  - intros T H. cbn [step] in H. unfold set_tuning in H. unfold leave_during. rewrite T in *. cbn [Bool.eqb andb] in H.
    destruct (do_during_quiet y st true need m Q) as [n E]. exists n. rewrite E. destruct (do_apply y true need m) as [x| | |]; try discriminate. cbn [obind timed fst snd] in *.
    inversion H; subst. auto.
Qed.
Print Assumptions C84_quiet.

Example C84_quiet_nonvacuous : system_ok demo /\ reachable demo demo_call /\ step demo demo_call (CApply [1]) = Ok (true, demo_called)
  /\ apply_during demo (fun _ => mg_crits demo_call) [1] demo_call = Ok (demo_called, 2).
Proof. split; [apply demo_ok|]. split; [apply typed_reachable, demo_call_typed|]. split; vm_compute; reflexivity. Qed.

(** ** Each domain *)

(** Whatever the other threads do with the criteria, the application ends, and keeps the domains but for the configurations last applied.
    Each domain is judged during an interval of the application.  If the criteria stay in one state during this interval, the domain ends
    with its first configuration whose rule holds in this state, or unchanged when there is none. *)
Theorem C84_each : forall y m st need, system_ok y -> reachable y m -> mg_tuning m = false -> course (mg_crits m) st ->
  exists m' n, apply_during y st need m = Ok (m', n) /\ mg_tuning m' = false
    /\ (forall i, state_of (mg_crits m') i = state_of (st n) i)
    /\ Forall2 (fun d d' => same_but_last d d' /\ exists a b, a <= b <= n
         /\ forall cs, List.length cs = List.length (mg_crits m) -> steady st cs a b ->
              (forall c, first_match cs d c -> dm_last d' = Some (cf_id c)) /\ (none_match cs d -> dm_last d' = dm_last d))
       (ds_list (mg_doms m)) (ds_list (mg_doms m')).
Proof.
  intros y m st need Sy R T C. destruct (reachable_ok y m Sy R) as [[K [V L]] [Ru _]].
  destruct (do_during_spec y st false need m (proj1 Sy) (conj (ds_domain _ _ K) L)) as [m' [n [E [Ec [Et [_ [_ [_ [F _]]]]]]]]].
  exists m', n. unfold apply_during. rewrite T. split; auto. split; [congruence|]. split.
  - intros i. rewrite Ec. unfold state_of, crits_reset. rewrite nth_error_map. destruct (nth_error (st n) i); auto.
  - assert (forall d, In d (ds_list (mg_doms m)) -> scoped (mg_crits m) d) as Sc by (intros; apply rules_scoped; auto). clear - F Sc.
    induction F as [|d d' l l' Tu F IH]; constructor; [|apply IH; intros; apply Sc; simpl; auto].
    split; [eapply turned_same; eauto|]. destruct Tu as [a [A1 ->]]. exists a, (snd (pick_looks st (dm_configs d) a)).
    pose proof (pick_later st (dm_configs d) a). split; [lia|]. intros cs Lc St. pose proof (pick_steady st cs (dm_configs d) a St) as P. rewrite P.
    assert (scoped cs d) as Sd by (apply (scoped_length (mg_crits m)); auto; apply Sc; simpl; auto). split.
    + intros c Fm. apply (applicable_first cs d c Sd) in Fm. unfold dm_applicable in Fm. rewrite Fm. auto.
    + intros Nm. apply (applicable_none cs d Sd) in Nm. unfold dm_applicable in Nm. rewrite Nm. auto.
Qed.
Print Assumptions C84_each.

(** The first domain is judged by the first look, in the mode Call; the second one after it, in the mode Normal. *)
Example C84_each_nonvacuous : reachable demo rx /\ mg_tuning rx = false /\ course (mg_crits rx) (to_normal rx)
  /\ map dm_last (ds_list (mg_doms rx)) = [Some 1; None] /\ lasts (apply_during demo (to_normal rx) [] rx) = Some ([Some 0; Some 0], 2)
  /\ steady (to_normal rx) (mg_crits rx) 0 1 /\ steady (to_normal rx) (crits_set (mg_crits rx) 0 2) 1 2.
Proof.
  split; [apply rx_reachable|]. split; [vm_compute; reflexivity|]. split; [apply to_normal_course|]. split; [vm_compute; reflexivity|]. split; [vm_compute; reflexivity|].
  split; intros t Ht; [assert (t = 0) as -> by lia|assert (t = 1) as -> by lia]; reflexivity.
Qed.

(** The criteria change once during the application, from [cs1] to [cs2] at any moment: in the order of the application, the first domains
    are as after an application in the state [cs1], the last ones as after an application in the state [cs2], and at most one domain
    between them saw both states. *)
Theorem C84_one_change : forall y m st need m' n cs1 cs2 t0, system_ok y -> reachable y m -> mg_tuning m = false -> course (mg_crits m) st ->
  (forall t, t < t0 -> st t = cs1) -> (forall t, t0 <= t -> st t = cs2) -> 0 < t0 -> apply_during y st need m = Ok (m', n) ->
  exists l1 l2 l3 r1 r2 r3, apply_order (ds_list (mg_doms m)) = l1 ++ l2 ++ l3 /\ apply_order (ds_list (mg_doms m')) = r1 ++ r2 ++ r3
    /\ Forall2 (judged_in cs1) l1 r1 /\ List.length l2 <= 1 /\ Forall2 same_but_last l2 r2 /\ Forall2 (judged_in cs2) l3 r3.
Proof.
  intros y m st need m' n cs1 cs2 t0 Sy R T C B A P E. destruct (reachable_ok y m Sy R) as [[K [V L]] [Ru _]]. unfold apply_during in E. rewrite T in E.
  pose proof (do_during_sweep y st false need m m' n (proj1 Sy) (conj (ds_domain _ _ K) L) E) as S.
  assert (forall t d, In d (apply_order (ds_list (mg_doms m))) -> scoped (st t) d) as Sc.
  { intros t d Hd. apply (scoped_length (mg_crits m)); [apply course_length; auto|]. apply rules_scoped; auto.
    unfold apply_order in Hd. apply in_app_or in Hd. destruct Hd as [Hd|Hd]; apply filter_In in Hd; tauto. }
  destruct (sweep_change st cs1 cs2 t0 (apply_order (ds_list (mg_doms m))) 0) as [l1 [l2 [l3 [r1 [r2 [r3 H]]]]]]; auto.
  - intros d Hd. rewrite <- (B 0 P). auto.
  - intros d Hd. rewrite <- (A t0 (le_n _)). auto.
  - exists l1, l2, l3, r1, r2, r3. rewrite S in H. exact H.
Qed.
Print Assumptions C84_one_change.

Example C84_one_change_nonvacuous : reachable demo rx /\ mg_tuning rx = false /\ course (mg_crits rx) (to_normal rx)
  /\ (forall t, t < 1 -> to_normal rx t = mg_crits rx) /\ (forall t, 1 <= t -> to_normal rx t = crits_set (mg_crits rx) 0 2)
  /\ lasts (apply_during demo (to_normal rx) [] rx) = Some ([Some 0; Some 0], 2).
Proof.
  split; [apply rx_reachable|]. split; [vm_compute; reflexivity|]. split; [apply to_normal_course|].
  split; [intros t Ht; assert (t = 0) as -> by lia; reflexivity|]. split; [intros [|t] Ht; [lia|reflexivity]|]. vm_compute. reflexivity.
Qed.

(** ** One criterion changes *)

(** When a single criterion changes, a configuration newly applied whose rule has at most one test of this criterion was applicable at some
    moment of the application. *)
Theorem C84_seen : forall y m st need m' n k i d d' c r, system_ok y -> reachable y m -> mg_tuning m = false -> course (mg_crits m) st ->
  only_changes k st -> apply_during y st need m = Ok (m', n) ->
  nth_error (ds_list (mg_doms m)) i = Some d -> nth_error (ds_list (mg_doms m')) i = Some d' ->
  In c (dm_configs d) -> cf_rule c = Some r -> tests_of k r <= 1 -> dm_last d' = Some (cf_id c) -> dm_last d <> Some (cf_id c) ->
  exists t, t <= n /\ matches (st t) c.
Proof.
  intros y m st need m' n k i d d' c r Sy R T C O E Hd Hd' Ic Er Te La Nl. destruct (reachable_ok y m Sy R) as [[K [V L]] [Ru _]].
  destruct (do_during_spec y st false need m (proj1 Sy) (conj (ds_domain _ _ K) L)) as [m2 [n2 [E2 [_ [_ [_ [_ [_ [F _]]]]]]]]].
  unfold apply_during in E. rewrite T, E2 in E. inversion E; subst m2 n2. clear E.
  assert (turned st false n d d') as [a [A1 ->]].
  { clear - F Hd Hd'. revert i Hd Hd'. induction F; intros i Hd Hd'; destruct i; simpl in *; try discriminate; [congruence|eauto]. }
  pose proof (nth_error_In _ _ Hd) as Id. pose proof (pick_In st (dm_configs d) a) as PI.
  destruct (fst (pick_looks st (dm_configs d) a)) as [c2|]; cbn [picked with_last dm_last] in La; [|congruence].
  destruct (PI c2 eq_refl) as [Ic2 [r2 [u [R2 [U1 [U2 U3]]]]]].
  assert (c2 = c) as -> by (apply (ids_inj (dm_configs d)); auto; [apply (dk_ids _ _ (ds_domain _ _ K d Id))|congruence]).
  assert (r2 = r) as -> by congruence. destruct (looks_once k st r u O Te) as [t [T1 T2]]. exists t. split; [lia|].
  exists r. split; auto. apply (rule_matches_spec (st t)); [|intros j x Hj; unfold state_of; rewrite Hj; auto|congruence].
  apply (in_scope_length (mg_crits m)); [apply course_length; auto|]. apply (Ru d c r); auto.
Qed.
Print Assumptions C84_seen.

Definition config_of (m : mgr) (i j : nat) : option config :=
  match nth_error (ds_list (mg_doms m)) i with Some d => nth_error (dm_configs d) j | None => None end.

Example C84_seen_nonvacuous : reachable demo rx /\ mg_tuning rx = false /\ course (mg_crits rx) (to_normal rx) /\ only_changes 0 (to_normal rx)
  /\ lasts (apply_during demo (to_normal rx) [] rx) = Some ([Some 0; Some 0], 2) /\ map dm_last (ds_list (mg_doms rx)) = [Some 1; None]
  /\ option_map (fun c => option_map (tests_of 0) (cf_rule c)) (config_of rx 0 0) = Some (Some 1)
  /\ option_map (fun c => option_map (tests_of 0) (cf_rule c)) (config_of rx 1 0) = Some (Some 1).
Proof.
  split; [apply rx_reachable|]. split; [vm_compute; reflexivity|]. split; [apply to_normal_course|]. split; [apply to_normal_only|].
  repeat split; vm_compute; reflexivity.
Qed.

(** ** What goes wrong *)

Lemma not_matching : forall cs c r, cf_rule c = Some r -> in_scope cs r -> rule_matches cs r = false -> ~ matches cs c.
Proof.
  intros cs c r E I F [r2 [E2 H]]. assert (r2 = r) as -> by congruence.
  apply (rule_matches_spec cs (state_of cs) r I ltac:(intros j x Hj; unfold state_of; rewrite Hj; auto)) in H. congruence.
Qed.

Lemma is_matching : forall cs c r, cf_rule c = Some r -> in_scope cs r -> rule_matches cs r = true -> matches cs c.
Proof.
  intros cs c r E I F. exists r. split; auto. apply (rule_matches_spec cs (state_of cs) r I); auto. intros j x Hj. unfold state_of. rewrite Hj. auto.
Qed.

Lemma config_scoped : forall m i j c r st t, reachable demo m -> config_of m i j = Some c -> cf_rule c = Some r -> course (mg_crits m) st -> in_scope (st t) r.
Proof.
  intros m i j c r st t R H Er C. destruct (reachable_ok demo m (demo_ok _) R) as [_ [Ru _]]. unfold config_of in H.
  destruct (nth_error (ds_list (mg_doms m)) i) as [d|] eqn:E; [|discriminate].
  apply (in_scope_length (mg_crits m)); [apply course_length; auto|]. apply (Ru d c r); auto; eapply nth_error_In; eauto.
Qed.

(** Two criteria change one after the other while a rule is judged: a configuration is applied although its rule holds in none of the
    states the criteria go through.  SelectionCriterion.cpp:63-86 takes no lock. *)
Theorem C84_torn_refuted : exists y m st m' n d d' c, system_ok y /\ reachable y m /\ mg_tuning m = false /\ course (mg_crits m) st
  /\ apply_during y st [] m = Ok (m', n) /\ nth_error (ds_list (mg_doms m)) 0 = Some d /\ nth_error (ds_list (mg_doms m')) 0 = Some d'
  /\ In c (dm_configs d) /\ dm_last d <> Some (cf_id c) /\ dm_last d' = Some (cf_id c) /\ forall t, ~ matches (st t) c.
Proof.
  let r := eval vm_compute in (apply_during demo (to_headset rt) [] rt) in
  let d := eval vm_compute in (nth_error (ds_list (mg_doms rt)) 0) in
  let c := eval vm_compute in (config_of rt 0 0) in
  match r with Ok (?m', ?n) => match d with Some ?d0 => match c with Some ?c0 =>
    let d2 := eval vm_compute in (nth_error (ds_list (mg_doms m')) 0) in match d2 with Some ?d1 =>
    exists demo, rt, (to_headset rt), m', n, d0, d1, c0 end end end end.
  split; [apply demo_ok|]. split; [apply rt_reachable|]. split; [vm_compute; reflexivity|]. split; [apply to_headset_course|].
  split; [vm_compute; reflexivity|]. split; [vm_compute; reflexivity|]. split; [reflexivity|]. split; [left; reflexivity|]. split; [discriminate|]. split; [reflexivity|].
  intros t. eapply not_matching; [reflexivity| |].
  - eapply (config_scoped rt 0 0); [apply rt_reachable|vm_compute; reflexivity|reflexivity|apply to_headset_course].
  - destruct t as [|[|t]]; vm_compute; reflexivity.
Qed.
Print Assumptions C84_torn_refuted.

(** One criterion changes once while a rule that names it twice is judged: the first configuration of the domain is not applied although
    its rule holds in all the states the criteria go through. *)
Theorem C84_missed_refuted : exists y m st m' n d d' c, system_ok y /\ reachable y m /\ mg_tuning m = false /\ course (mg_crits m) st
  /\ only_changes 0 st
  /\ apply_during y st [] m = Ok (m', n) /\ nth_error (ds_list (mg_doms m)) 0 = Some d /\ nth_error (ds_list (mg_doms m')) 0 = Some d'
  /\ hd_error (dm_configs d) = Some c /\ (forall t, matches (st t) c) /\ dm_last d' <> Some (cf_id c).
Proof.
  let r := eval vm_compute in (apply_during demo (to_normal rm) [] rm) in
  let d := eval vm_compute in (nth_error (ds_list (mg_doms rm)) 0) in
  let c := eval vm_compute in (config_of rm 0 0) in
  match r with Ok (?m', ?n) => match d with Some ?d0 => match c with Some ?c0 =>
    let d2 := eval vm_compute in (nth_error (ds_list (mg_doms m')) 0) in match d2 with Some ?d1 =>
    exists demo, rm, (to_normal rm), m', n, d0, d1, c0 end end end end.
  split; [apply demo_ok|]. split; [apply rm_reachable|]. split; [vm_compute; reflexivity|]. split; [apply to_normal_course|]. split; [apply to_normal_only|].
  split; [vm_compute; reflexivity|]. split; [vm_compute; reflexivity|]. split; [reflexivity|]. split; [reflexivity|]. split; [|discriminate].
  intros t. eapply is_matching; [reflexivity| |].
  - eapply (config_scoped rm 0 0); [apply rm_reachable|vm_compute; reflexivity|reflexivity|apply to_normal_course].
  - destruct t as [|t]; vm_compute; reflexivity.
Qed.
Print Assumptions C84_missed_refuted.

(** One criterion changes once between the domains: two configurations of two domains are applied together although their rules hold
    together in none of the states the criteria go through. *)
Theorem C84_mixed_refuted : exists y m st m' n d1 d2 c1 c2, system_ok y /\ reachable y m /\ mg_tuning m = false /\ course (mg_crits m) st
  /\ only_changes 0 st /\ apply_during y st [] m = Ok (m', n)
  /\ nth_error (ds_list (mg_doms m')) 0 = Some d1 /\ nth_error (ds_list (mg_doms m')) 1 = Some d2
  /\ In c1 (dm_configs d1) /\ In c2 (dm_configs d2) /\ dm_last d1 = Some (cf_id c1) /\ dm_last d2 = Some (cf_id c2)
  /\ map dm_last (ds_list (mg_doms m)) = [Some 1; None] /\ cf_id c1 <> 1
  /\ forall t, ~ (matches (st t) c1 /\ matches (st t) c2).
Proof.
  let r := eval vm_compute in (apply_during demo (to_normal rx) [] rx) in
  let c := eval vm_compute in (config_of rx 0 0) in let k := eval vm_compute in (config_of rx 1 0) in
  match r with Ok (?m', ?n) => match c with Some ?c1 => match k with Some ?c2 =>
    let d1 := eval vm_compute in (nth_error (ds_list (mg_doms m')) 0) in let d2 := eval vm_compute in (nth_error (ds_list (mg_doms m')) 1) in
    match d1 with Some ?x1 => match d2 with Some ?x2 =>
    exists demo, rx, (to_normal rx), m', n, x1, x2, c1, c2 end end end end end.
  split; [apply demo_ok|]. split; [apply rx_reachable|]. split; [vm_compute; reflexivity|]. split; [apply to_normal_course|]. split; [apply to_normal_only|].
  split; [vm_compute; reflexivity|]. split; [reflexivity|]. split; [reflexivity|]. split; [left; reflexivity|]. split; [left; reflexivity|].
  split; [reflexivity|]. split; [reflexivity|]. split; [vm_compute; reflexivity|]. split; [discriminate|].
  intros t [A B]. destruct t as [|t]; [revert B|revert A]; (eapply not_matching; [reflexivity| |vm_compute; reflexivity]).
  - eapply (config_scoped rx 1 0 _ _ _ 0); [apply rx_reachable|vm_compute; reflexivity|reflexivity|apply to_normal_course].
  - eapply (config_scoped rx 0 0 _ _ _ (S t)); [apply rx_reachable|vm_compute; reflexivity|reflexivity|apply to_normal_course].
Qed.
Print Assumptions C84_mixed_refuted.

(** A criterion changes after the last look at it: the application counts the change as applied, although the configurations applied are
    those of the state before it and another configuration is the first applicable one (SelectionCriterion.cpp:55-58
    resetModifiedStatus). *)
Theorem C84_unnoticed_refuted : exists y m st m' n d c k, system_ok y /\ reachable y m /\ mg_tuning m = false /\ course (mg_crits m) st
  /\ apply_during y st [] m = Ok (m', n) /\ (forall x, In x (mg_crits m') -> cr_mods x = 0%Z)
  /\ nth_error (ds_list (mg_doms m')) 0 = Some d /\ dm_configs d = [c; k] /\ cf_id c <> cf_id k /\ dm_last d = Some (cf_id c)
  /\ first_match (mg_crits m') d k.
Proof.
  let r := eval vm_compute in (apply_during demo (to_normal rx) [] rx) in
  let c := eval vm_compute in (config_of rx 0 0) in let k := eval vm_compute in (config_of rx 0 1) in
  match r with Ok (?m', ?n) => match c with Some ?c1 => match k with Some ?c2 =>
    let d1 := eval vm_compute in (nth_error (ds_list (mg_doms m')) 0) in
    match d1 with Some ?x1 => exists demo, rx, (to_normal rx), m', n, x1, c1, c2 end end end end.
  split; [apply demo_ok|]. split; [apply rx_reachable|]. split; [vm_compute; reflexivity|]. split; [apply to_normal_course|].
  split; [vm_compute; reflexivity|]. split; [intros x [<-|[<-|[]]]; reflexivity|]. split; [reflexivity|]. split; [reflexivity|]. split; [discriminate|]. split; [reflexivity|].
  match goal with |- first_match _ _ ?k0 => match goal with |- first_match _ (Domain _ _ _ _ [?c0; _] _ _ _) _ => exists [c0], [] end end.
  split; [reflexivity|]. split.
  - eexists. split; [reflexivity|]. apply holds_all. intros r [].
  - intros x [<-|[]] [r [Er Ho]]. inversion Er; subst r. inversion Ho as [|l Hl|]; subst.
    specialize (Hl _ (or_introl eq_refl)). inversion Hl as [c w v Hv| |]; subst. vm_compute in Hv. discriminate.
Qed.
Print Assumptions C84_unnoticed_refuted.

(** ** Once the criteria are quiet *)

(** The end of the tuning mode leaves in the memory the settings of the configurations last applied, even if the criteria change meanwhile. *)
Theorem C84_forced : forall y m st need, system_ok y -> reachable y m -> mg_tuning m = true -> course (mg_crits m) st ->
  apart (sy_root y) (ds_list (mg_doms m)) ->
  exists m' n, leave_during y st need m = Ok (m', n) /\ mg_tuning m' = false /\ all_settled y m'.
Proof.
  intros y m st need Sy R T C Ap. pose proof (reachable_sound y m Sy R Ap) as So.
  destruct (do_during_spec y st true need m (proj1 Sy) (proj1 So)) as [m' [n [E _]]].
  exists (with_tuning m' false), n. unfold leave_during. rewrite T, E. split; auto. split; auto.
  destruct (during_sound y st true need m m' n (proj1 Sy) So (course_length _ _ C) E) as [_ A]. exact (A (or_introl eq_refl)).
Qed.
Print Assumptions C84_forced.

(** After any number of changes of the criteria and of applications during which they change, the first application during which they do not
    change repairs everything: each domain that has an applicable configuration ends with the first one, and its parameters have the settings
    of this configuration.  The domains without one keep in the memory the settings of the configuration last applied.  No parameter belongs
    to two domains. *)
Theorem C84_settled : forall y m m1 need, system_ok y -> reachable y m -> apart (sy_root y) (ds_list (mg_doms m)) -> all_settled y m ->
  disturbed y m m1 -> mg_tuning m1 = false ->
  exists m2, apply_configurations y need m1 = Ok m2 /\ all_settled y m2
    /\ forall d c, In d (ds_list (mg_doms m2)) -> first_match (mg_crits m1) d c ->
         dm_last d = Some (cf_id c) /\ forall q e, param_at (sy_root y) q e -> covers d q -> records (sy_root y) c q 0 (mg_main m2).
Proof.
  intros y m m1 need Sy R Ap Al D T. destruct (disturbed_sound y m m1 (proj1 Sy) D (reachable_sound y m Sy R Ap) Al) as [So A1].
  set (st := fun _ : nat => mg_crits m1). destruct (do_during_spec y st false need m1 (proj1 Sy) (proj1 So)) as [m2 [n [E [_ [_ [_ [_ [_ [F _]]]]]]]]].
  destruct (do_during_quiet y st false need m1 (fun _ => eq_refl)) as [n2 E2]. rewrite E in E2.
  destruct (do_apply y false need m1) as [x| | |] eqn:Ed; try discriminate. cbn [timed] in E2. inversion E2; subst x n2.
  exists m2. unfold apply_configurations. rewrite T. split; auto.
  destruct (during_sound y st false need m1 m2 n (proj1 Sy) So (fun _ => eq_refl) E) as [_ A2]. specialize (A2 (or_intror A1)). split; auto.
  intros d' c Hd Fm. destruct (Forall2_In_r _ _ _ _ _ _ F Hd) as [d [Hd1 Tu]]. pose proof (turned_same _ _ _ _ _ Tu) as [_ [_ [_ [_ [Es _]]]]].
  assert (first_match (mg_crits m1) d c) as Fm0 by (unfold first_match in *; rewrite <- Es; auto).
  assert (dm_last d' = Some (cf_id c)) as La.
  { destruct Tu as [a [_ ->]]. rewrite (pick_steady st (mg_crits m1) (dm_configs d) a (fun _ _ => eq_refl)).
    apply (applicable_first _ d c (proj1 (proj2 So) d Hd1)) in Fm0. unfold dm_applicable in Fm0. rewrite Fm0. auto. }
  split; auto. intros q e Hq Cv. apply (A2 d' Hd c q e); auto. rewrite Es. apply (first_match_In (mg_crits m1)). auto.
Qed.
Print Assumptions C84_settled.

(** The state of the examples in tuning mode, then after it. *)
Definition rs_setup := race_setup (lit "All{Mode Is Call}") (lit "Any{Mode Is Normal}").
Definition rs := demo_after demo rs_setup.
Definition rl := demo_after demo (rs_setup ++ [CTuning false []]).

Lemma rs_reachable : reachable demo rs.
Proof. exists demo_start, rs_setup, (repeat true 23). split; [exact demo_started|]. vm_compute. reflexivity. Qed.
Lemma rl_reachable : reachable demo rl.
Proof. exists demo_start, (rs_setup ++ [CTuning false []]), (repeat true 24). split; [exact demo_started|]. vm_compute. reflexivity. Qed.

Lemma demo_apart : forall l, map dm_elems l = [[[0; 0]]; [[0; 1]; [0; 2]]] -> apart (sy_root demo) l.
Proof.
  intros l E. destruct l as [|d [|k [|x l]]]; try discriminate. cbn [map] in E. inversion E as [[E1 E2]].
  constructor; [|constructor; [constructor|constructor]]. constructor; [|constructor].
  intros q e _ [p [Hp [r Ep]]] [p2 [Hp2 [r2 Ep2]]]. rewrite E1 in Hp. rewrite E2 in Hp2. simpl in Hp, Hp2.
  destruct Hp as [<-|[]]. destruct Hp2 as [<-|[<-|[]]]; rewrite Ep in Ep2; discriminate.
Qed.

(** The mode becomes Normal at the first look of the forced application. *)
Example C84_forced_nonvacuous : reachable demo rs /\ mg_tuning rs = true /\ course (mg_crits rs) (to_normal rs)
  /\ apart (sy_root demo) (ds_list (mg_doms rs)) /\ lasts (leave_during demo (to_normal rs) [] rs) = Some ([Some 1; Some 0], 2).
Proof.
  split; [apply rs_reachable|]. split; [vm_compute; reflexivity|]. split; [apply to_normal_course|]. split; [apply demo_apart; vm_compute; reflexivity|].
  vm_compute. reflexivity.
Qed.

Lemma rl_settled : all_settled demo rl.
Proof.
  destruct (C84_forced demo rs (fun _ => mg_crits rs) [] (demo_ok _) rs_reachable) as [m' [n [E [_ A]]]].
  - vm_compute. reflexivity.
  - split; [constructor|intros; constructor].
  - apply demo_apart. vm_compute. reflexivity.
  - assert (m' = rl) as <-; [|exact A].
    assert (option_map fst (match leave_during demo (fun _ => mg_crits rs) [] rs with Ok x => Some x | _ => None end) = Some rl) as X by (vm_compute; reflexivity).
    rewrite E in X. cbn [option_map fst] in X. congruence.
Qed.

(** The application during which the mode changes from Call to Normal applies the configurations of both modes (0 of D1 is for Call); the
    next one repairs it. *)
Definition rn := match apply_during demo (to_normal rx) [] rx with Ok (m, _) => m | _ => rx end.

Example C84_settled_nonvacuous : reachable demo rl /\ apart (sy_root demo) (ds_list (mg_doms rl)) /\ all_settled demo rl
  /\ disturbed demo rl rn /\ mg_tuning rn = false /\ map dm_last (ds_list (mg_doms rn)) = [Some 0; Some 0]
  /\ option_map (fun m => map dm_last (ds_list (mg_doms m))) (match apply_configurations demo [] rn with Ok m => Some m | _ => None end) = Some [Some 1; Some 0].
Proof.
  split; [apply rl_reachable|]. split; [apply demo_apart; vm_compute; reflexivity|]. split; [apply rl_settled|]. split.
  - apply (dt_apply demo rl rx rn (to_normal rx) [] 2); [|apply to_normal_course|vm_compute; reflexivity].
    assert (rx = with_crits rl (crits_set (mg_crits rl) 0 1)) as -> by (vm_compute; reflexivity). apply dt_criterion. constructor.
  - split; [vm_compute; reflexivity|]. split; vm_compute; reflexivity.
Qed.
