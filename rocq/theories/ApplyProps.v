(** C17, C18, C19, C20 and C29: application of configurations. *)
From Coq Require Import List Arith ZArith Bool Ascii String Lia.
From Verif Require Import Base BaseProofs BlackboardModel CriterionModel RuleModel TreeModel TreeSpec TreeProofs MemSpec SyncModel DomainModel DomainSpec MgrModel MgrSpec MgrSkel ApplySpec ApplyProofs
  ValueSpec ValueProofs ReadProofs ApplyMore Demo.
Import ListNotations.
Local Open Scope nat_scope.

(** In the examples: the system of Demo.v, after its twenty commands and a change of both criteria. *)
Definition demo_call_cmds : list cmd := demo_cmds ++ [CCriterion 0 1; CCriterion 1 2].
Definition demo_call : mgr := demo_after demo demo_call_cmds.
Definition demo_called : mgr := demo_after demo (demo_call_cmds ++ [CApply [1]]).

Lemma demo_call_typed : reachable_typed demo demo_call.
Proof.
  exists demo_start, demo_call_cmds, (repeat true 22). split; [exact demo_started|]. split; [exact demo_strings|]. split; [repeat (constructor; [split; [exact I|discriminate]|]); constructor|].
  vm_compute. reflexivity.
Qed.

(** ** C17 *)

(** Every domain has a first matching configuration or none matching. *)
Theorem C17_first_or_none : forall y m d, system_ok y -> reachable y m -> In d (ds_list (mg_doms m)) ->
  (exists c, first_match (mg_crits m) d c) \/ none_match (mg_crits m) d.
Proof. intros y m d Sy R Hd. destruct (reachable_ok y m Sy R) as [_ [Ru _]]. apply first_or_none, rules_scoped; auto. Qed.
Print Assumptions C17_first_or_none.

(** Outside tuning mode the application succeeds; the configuration last applied of each domain is then its first matching one,
    or the same as before when none matches; nothing else of the domains changes. *)
Theorem C17_first_applicable_is_applied : forall y m need, system_ok y -> reachable y m -> mg_tuning m = false ->
  exists m', step y m (CApply need) = Ok (true, m')
    /\ Forall2 (fun d d' => same_but_last d d'
         /\ (forall c, first_match (mg_crits m) d c -> dm_last d' = Some (cf_id c))
         /\ (none_match (mg_crits m) d -> dm_last d' = dm_last d)) (ds_list (mg_doms m)) (ds_list (mg_doms m')).
Proof.
  intros y m need Sy R T. destruct (reachable_ok y m Sy R) as [K [Ru _]]. destruct (do_apply_spec y false need m Sy K Ru) as [m' [mid [e1 [ps [H1 [_ [_ [_ [_ [Fo _]]]]]]]]]].
  exists m'. split; auto. cbn [step]. unfold apply_configurations. rewrite T, H1. reflexivity.
Qed.
Print Assumptions C17_first_applicable_is_applied.

Example C17_nonvacuous : system_ok demo /\ reachable demo demo_call /\ mg_tuning demo_call = false
  /\ map dm_last (ds_list (mg_doms demo_call)) = [Some 1; None] /\ map dm_last (ds_list (mg_doms demo_called)) = [Some 0; Some 0]
  /\ step demo demo_call (CApply [1]) = Ok (true, demo_called).
Proof. split; [apply demo_ok|]. split; [apply typed_reachable, demo_call_typed|]. vm_compute. repeat split. Qed.

(** ** C18 *)

(** As bits: a parameter covered by no switching domain keeps its value, another one holds the value recorded by the
    configuration taken by the last domain, in the order of the application, among those that switch and cover it. *)
Theorem C18_settings_applied : forall y m need m', system_ok y -> reachable y m -> mg_tuning m = false -> step y m (CApply need) = Ok (true, m') ->
  settings_applied (sy_root y) (mg_crits m) false (apply_order (ds_list (mg_doms m))) (mg_main m) (mg_main m').
Proof.
  intros y m need m' Sy R T H. destruct (reachable_ok y m Sy R) as [K [Ru _]]. destruct (do_apply_spec y false need m Sy K Ru) as [m1 [mid [e1 [ps [H1 [_ [_ [_ [_ [_ [A _]]]]]]]]]]].
  cbn [step] in H. unfold apply_configurations in H. rewrite T, H1 in H. cbn [obind] in H. inversion H; subst. auto.
Qed.
Print Assumptions C18_settings_applied.

(** As texts: what the parameter reads after the application is what the configuration read before it. *)
Theorem C18_recorded_is_read : forall y m need m' l1 d l2 dn cn c path q e, system_ok y -> reachable_typed y m -> mg_tuning m = false ->
  step y m (CApply need) = Ok (true, m') ->
  apply_order (ds_list (mg_doms m)) = l1 ++ d :: l2 -> ds_find dn (mg_doms m) = Some d -> dm_find cn d = Some c ->
  switches (mg_crits m) false d c -> locate (sy_root y) path = Some q -> param_at (sy_root y) q e -> covers d q ->
  (forall k kc, In k l2 -> switches (mg_crits m) false k kc -> ~ covers k q) ->
  get_parameter y path m' = get_recorded y dn cn path m.
Proof.
  intros y m need m' l1 d l2 dn cn c path q e Sy R T H O Fd Fc S P Hq Cv N. pose proof (typed_reachable _ _ R) as R0. destruct (reachable_ok y m Sy R0) as [K [Ru _]].
  pose proof (C18_settings_applied y m need m' Sy R0 T H q e Hq) as [_ A]. specialize (A l1 d c l2 O S Cv N). pose proof (reachable_step _ _ _ _ _ R0 H) as R'.
  destruct (reachable_ok y m' Sy R') as [[_ [_ L']] _]. symmetry. apply (recorded_live y m m' dn cn path q e d c); auto.
  - cbn [step] in H. unfold apply_configurations in H. rewrite T in H. destruct (do_apply y false need m) as [x| | |] eqn:E; try discriminate. cbn [obind] in H. inversion H; subst.
    eapply do_apply_fmt; eauto.
  - destruct S as [_ [S|S]]; [discriminate|]. unfold is_last. destruct (dm_last d) as [i|]; auto. apply Nat.eqb_neq. congruence.
Qed.
Print Assumptions C18_recorded_is_read.

(** As texts: the other parameters read the same as before. *)
Theorem C18_others_unchanged : forall y m need m' path q rest, system_ok y -> reachable_typed y m -> mg_tuning m = false ->
  step y m (CApply need) = Ok (true, m') -> param_of (sy_root y) path = Some (q, rest) ->
  (forall d c, In d (ds_list (mg_doms m)) -> switches (mg_crits m) false d c -> ~ covers d q) ->
  get_parameter y path m' = get_parameter y path m.
Proof.
  intros y m need m' path q rest Sy R T H P N. pose proof (typed_reachable _ _ R) as R0. destruct (reachable_ok y m Sy R0) as [[_ [_ L]] _].
  pose proof (reachable_step _ _ _ _ _ R0 H) as R'. destruct (reachable_ok y m' Sy R') as [[_ [_ L']] _]. destruct (param_of_sound _ _ _ _ P) as [e Hq].
  pose proof (C18_settings_applied y m need m' Sy R0 T H q e Hq) as [A _]. apply (get_same y m m' path q rest); auto.
  - apply Sy.
  - cbn [step] in H. unfold apply_configurations in H. rewrite T in H. destruct (do_apply y false need m) as [x| | |] eqn:E; try discriminate. cbn [obind] in H. inversion H; subst.
    eapply do_apply_fmt; eauto.
  - apply typed_strings; auto.
  - apply A. intros d c Hd. apply N. unfold apply_order in Hd. apply in_app_or in Hd. rewrite !filter_In in Hd. tauto.
Qed.
Print Assumptions C18_others_unchanged.

Example C18_nonvacuous : exists d c, ds_find (lit "D1") (mg_doms demo_call) = Some d /\ dm_find (lit "Call") d = Some c /\ switches (mg_crits demo_call) false d c
  /\ apply_order (ds_list (mg_doms demo_call)) = [] ++ d :: tl (ds_list (mg_doms demo_call))
  /\ locate demo_tree (lit "/Sys/Sub/blk/a") = Some [0; 0; 0] /\ covers d [0; 0; 0]
  /\ get_parameter demo (lit "/Sys/Sub/blk/a") demo_call = Ok (lit "200") /\ get_recorded demo (lit "D1") (lit "Call") (lit "/Sys/Sub/blk/a") demo_call = Ok (lit "100")
  /\ get_parameter demo (lit "/Sys/Sub/blk/a") demo_called = Ok (lit "100").
Proof.
  eexists. eexists. split; [vm_compute; reflexivity|]. split; [vm_compute; reflexivity|]. split.
  { apply chosen_switches; [|vm_compute; reflexivity]. apply rules_scoped; [|vm_compute; auto]. apply (reachable_ok demo); [apply demo_ok|apply typed_reachable, demo_call_typed]. }
  split; [vm_compute; reflexivity|]. split; [vm_compute; reflexivity|]. split; [exists [0; 0]; split; [vm_compute; auto|exists [0]; reflexivity]|].
  vm_compute. repeat split.
Qed.

(** ** C19 *)

(** A second application, with no request of resynchronisation, leaves the whole state as it is: parameters, domains, calls to
    the hardware. *)
Theorem C19_second_application_is_idle : forall y m need m1, system_ok y -> reachable y m -> step y m (CApply need) = Ok (true, m1) ->
  step y m1 (CApply []) = Ok (true, m1).
Proof.
  intros y m need m1 Sy R H. pose proof (reachable_step _ _ _ _ _ R H) as R1. destruct (reachable_ok y m Sy R) as [K [Ru _]]. destruct (reachable_ok y m1 Sy R1) as [K1 [Ru1 _]].
  cbn [step] in *. unfold apply_configurations in *. destruct (mg_tuning m) eqn:T.
  - cbn [obind] in H. inversion H; subst. rewrite T. reflexivity.
  - destruct (do_apply y false need m) as [x| | |] eqn:E; try discriminate. cbn [obind] in H. inversion H; subst x. destruct (do_apply_inv y false need m m1 (proj1 Sy) K E) as [_ [Ec [Et _]]].
    rewrite Et, T, (idle y m1 Sy K1 Ru1).
    + cbn [obind]. rewrite Ec, reset_twice. rewrite <- Ec. destruct m1; reflexivity.
    + apply (applied_idle y m need m1 _ Sy K Ru E). intros i. rewrite Ec. apply state_reset.
Qed.
Print Assumptions C19_second_application_is_idle.

(** The same when the criteria were changed in between and brought back to the states they had. *)
Theorem C19_criteria_brought_back : forall y m need m1 sets bs m2, system_ok y -> reachable y m -> step y m (CApply need) = Ok (true, m1) ->
  run y m1 (map (fun x => CCriterion (fst x) (snd x)) sets) = Ok (bs, m2) -> (forall i, state_of (mg_crits m2) i = state_of (mg_crits m) i) ->
  exists m3, step y m2 (CApply []) = Ok (true, m3) /\ mg_doms m3 = mg_doms m1 /\ mg_main m3 = mg_main m1 /\ mg_trace m3 = mg_trace m1.
Proof.
  intros y m need m1 sets bs m2 Sy R H Hr Hs. pose proof (reachable_step _ _ _ _ _ R H) as R1. destruct (reachable_ok y m Sy R) as [K [Ru _]].
  assert (mg_doms m2 = mg_doms m1 /\ mg_main m2 = mg_main m1 /\ mg_trace m2 = mg_trace m1 /\ mg_tuning m2 = mg_tuning m1 /\ reachable y m2) as [E1 [E2 [E3 [E4 R2]]]].
  { clear Hs H. revert m1 bs R1 Hr. induction sets as [|x sets IH]; intros m1 bs R1 Hr; cbn [map run] in Hr.
    - inversion Hr; subst. auto 6.
    - cbn [step obind fst snd] in Hr. destruct (run y _ _) as [[bs' m']| | |] eqn:E; try discriminate. cbn [obind fst snd] in Hr. inversion Hr; subst.
      destruct (IH _ _ (reachable_step _ _ (CCriterion (fst x) (snd x)) _ _ R1 eq_refl) E) as [I1 [I2 [I3 [I4 I5]]]]. auto 6. }
  destruct (reachable_ok y m2 Sy R2) as [K2 [Ru2 _]].
  cbn [step] in *. unfold apply_configurations in *. destruct (mg_tuning m) eqn:T.
  - cbn [obind] in H. inversion H; subst. rewrite E4, T. exists m2. auto.
  - destruct (do_apply y false need m) as [x| | |] eqn:E; try discriminate. cbn [obind] in H. inversion H; subst x. destruct (do_apply_inv y false need m m1 (proj1 Sy) K E) as [_ [_ [Et _]]].
    rewrite E4, Et, T, (idle y m2 Sy K2 Ru2); [eexists; split; [reflexivity|auto]|]. rewrite E1. apply (applied_idle y m need m1 _ Sy K Ru E). auto.
Qed.
Print Assumptions C19_criteria_brought_back.

Example C19_nonvacuous : step demo demo_call (CApply [1]) = Ok (true, demo_called) /\ demo_called <> demo_call
  /\ step demo demo_called (CApply []) = Ok (true, demo_called)
  /\ exists bs m2, run demo demo_called [CCriterion 0 2; CCriterion 0 1] = Ok (bs, m2) /\ mg_crits m2 <> mg_crits demo_called /\ (forall i, state_of (mg_crits m2) i = state_of (mg_crits demo_call) i).
Proof.
  split; [vm_compute; reflexivity|]. split; [intros C; apply (f_equal mg_main) in C; vm_compute in C; discriminate|]. split; [vm_compute; reflexivity|].
  eexists. eexists. split; [vm_compute; reflexivity|]. split; [vm_compute; discriminate|]. intros [|[|[|i]]]; vm_compute; reflexivity.
Qed.

(** ** C20 *)

(** The calls to the hardware, in order: first, with one and the same memory that holds the settings of the sequence unaware
    domains, one call of each syncer that serves a subsystem to resynchronise or an element of a sequence unaware domain that
    switches; then for each sequence aware domain that switches, in the order of the domains, for each element, in the order of
    the configuration taken, one call of each syncer that serves the element, with the settings of the element. *)
Theorem C20_synchronisation_order : forall y m need, system_ok y -> reachable y m -> mg_tuning m = false ->
  exists m' mid evs parts cfs, step y m (CApply need) = Ok (true, m')
    /\ mg_trace m' = mg_trace m ++ evs ++ List.concat parts
    /\ settings_applied (sy_root y) (mg_crits m) false (filter (fun d => negb (dm_aware d)) (ds_list (mg_doms m))) (mg_main m) mid
    /\ Forall (fun v => ev_mem v = mid) evs /\ NoDup (map ev_syncer evs)
    /\ (forall s, In s (map ev_syncer evs) <->
          (exists i, In i need /\ elem_at (sy_root y) [i] <> None /\ serves y s [i])
          \/ exists d c p, In d (ds_list (mg_doms m)) /\ dm_aware d = false /\ switches (mg_crits m) false d c /\ In p (dm_elems d) /\ serves y s p)
    /\ taken_by (mg_crits m) false (filter dm_aware (ds_list (mg_doms m))) cfs
    /\ Forall2 (area_synced y) (flat_map cf_areas cfs) parts.
Proof.
  intros y m need Sy R T. destruct (reachable_ok y m Sy R) as [K [Ru _]].
  destruct (do_apply_spec y false need m Sy K Ru) as [m' [mid [e1 [ps [H1 [_ [_ [_ [_ [_ [_ [A [B [C [D [E [cfs [F G]]]]]]]]]]]]]]]]]].
  exists m', mid, e1, ps, cfs. split; [cbn [step]; unfold apply_configurations; rewrite T, H1; reflexivity|]. auto 10.
Qed.
Print Assumptions C20_synchronisation_order.

Example C20_nonvacuous : map ev_syncer (skipn (List.length (mg_trace demo_call)) (mg_trace demo_called)) = [10; 20; 11; 12]
  /\ map dm_aware (ds_list (mg_doms demo_call)) = [false; true].
Proof. vm_compute. repeat split. Qed.

(** ** C29 *)

(** In tuning mode the application of configurations leaves the state as it is. *)
Theorem C29_tuning_freezes_application : forall y m need, mg_tuning m = true -> step y m (CApply need) = Ok (true, m).
Proof. intros y m need T. cbn [step]. unfold apply_configurations. rewrite T. reflexivity. Qed.
Print Assumptions C29_tuning_freezes_application.

(** Leaving tuning mode gives every domain its first matching configuration, applied already or not, and no configuration when
    none matches; the parameters then hold the values recorded by the last domain that covers them. *)
Theorem C29_leaving_tuning_reapplies : forall y m need, system_ok y -> reachable y m -> mg_tuning m = true ->
  exists m', step y m (CTuning false need) = Ok (true, m') /\ mg_tuning m' = false
    /\ Forall2 (fun d d' => same_but_last d d'
         /\ (forall c, first_match (mg_crits m) d c -> dm_last d' = Some (cf_id c))
         /\ (none_match (mg_crits m) d -> dm_last d' = None)) (ds_list (mg_doms m)) (ds_list (mg_doms m'))
    /\ (forall q e, param_at (sy_root y) q e ->
         ((forall d c, In d (ds_list (mg_doms m)) -> first_match (mg_crits m) d c -> ~ covers d q) -> same_setting (sy_root y) q 0 (mg_main m') 0 (mg_main m))
         /\ (forall l1 d c l2, apply_order (ds_list (mg_doms m)) = l1 ++ d :: l2 -> first_match (mg_crits m) d c -> covers d q ->
               (forall k kc, In k l2 -> first_match (mg_crits m) k kc -> ~ covers k q) -> records (sy_root y) c q 0 (mg_main m'))).
Proof.
  intros y m need Sy R T. destruct (reachable_ok y m Sy R) as [K [Ru _]]. destruct (do_apply_spec y true need m Sy K Ru) as [m1 [mid [e1 [ps [H1 [_ [_ [_ [_ [Fo [A _]]]]]]]]]]].
  exists (with_tuning m1 false). split; [cbn [step]; unfold set_tuning; rewrite T, H1; reflexivity|]. split; auto. split; [exact Fo|].
  intros q e Hq. destruct (A q e Hq) as [A1 A2]. split.
  - intros N. apply A1. intros d c Hd [F _]. apply (N d c); auto. unfold apply_order in Hd. apply in_app_or in Hd. rewrite !filter_In in Hd. tauto.
  - intros l1 d c l2 O F Cv N. apply (A2 l1 d c l2 O); auto; [split; auto|]. intros k kc Hk [Fk _]. apply (N k kc); auto.
Qed.
Print Assumptions C29_leaving_tuning_reapplies.

(** The parameter changed in tuning mode gets its recorded value back, though its configuration was already the last applied one. *)
Example C29_nonvacuous : let m1 := demo_after demo (demo_call_cmds ++ [CApply []; CTuning true []; CSetParameter (lit "/Sys/Sub/blk/a") (lit "7"); CApply []]) in
  let m2 := demo_after demo (demo_call_cmds ++ [CApply []; CTuning true []; CSetParameter (lit "/Sys/Sub/blk/a") (lit "7"); CApply []; CTuning false []]) in
  mg_tuning m1 = true /\ get_parameter demo (lit "/Sys/Sub/blk/a") m1 = Ok (lit "7") /\ get_parameter demo (lit "/Sys/Sub/blk/a") m2 = Ok (lit "100")
  /\ map dm_last (ds_list (mg_doms m1)) = map dm_last (ds_list (mg_doms m2)).
Proof. vm_compute. repeat split. Qed.
