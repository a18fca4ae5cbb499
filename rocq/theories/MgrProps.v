(** C28, C30 to C33, C49 and C57: tuning mode, synchronisation, rogue elements, handles of the client, values of parameters. *)
From Coq Require Import List Arith ZArith Bool Ascii String Lia.
From Verif Require Import Base BaseProofs TextProofs TextSpec BlackboardModel BlackboardProofs ParamTypeModel BitModel ArrayModel CriterionModel RuleModel TreeModel TreeSpec TreeProofs MemSpec MemProofs SyncModel SyncProofs DomainModel
  DomainSpec DomainProofs DomainInv DomainsInv MgrModel MgrSpec MgrProofs MgrFlow MgrSkel ApplySpec ApplyProofs ValueSpec ValueProofs ReadProofs ConfigSpec ConfigProofs ConfigProofs2 RogueProofs Demo ConfigProps.
Import ListNotations.
Local Open Scope nat_scope.

(** ** C28 *)

(** Commands that edit domains, configurations, the settings they record or the parameters. *)
Definition edits (c : cmd) : bool :=
  match c with
  | CTuning _ _ | CAutoSync _ | CSync | CValueSpace _ | COutputFormat _ | CApply _ | CCriterion _ _ | CHandleSet _ _ | CHandleBytes _ _ => false
  | _ => true
  end.

(** The editing commands that do not need tuning mode. *)
Definition always_allowed (c : cmd) : bool :=
  match c with CSetConfigParameter _ _ _ _ | CRenameDomain _ _ | CRenameConfig _ _ _ | CSetRule _ _ _ | CClearRule _ _ => true | _ => false end.

(** What configurations record: for each domain its elements and, configuration by configuration, its settings. *)
Definition recordings (m : mgr) := map (fun d => (dm_id d, dm_elems d, dm_last d, map (fun c => (cf_id c, cf_areas c)) (dm_configs d))) (ds_list (mg_doms m)).

(** Out of tuning mode the other editing commands are refused, and change nothing. *)
Theorem C28_refused_out_of_tuning : forall y m c, mg_tuning m = false -> edits c = true -> always_allowed c = false -> step y m c = Ok (false, m).
Proof. intros y m c T E A. destruct c; try discriminate; cbn [step]; unfold tuned; rewrite T; reflexivity. Qed.
Print Assumptions C28_refused_out_of_tuning.

(** Out of tuning mode every command of the tuning interface but setConfigurationParameter leaves the parameters and the recorded
    settings unchanged.  Missing: setConfigurationParameter, and the names and rules of configurations (refuted below). *)
Theorem C28_tuning_off_partial : forall y m c b m', mg_tuning m = false -> tuning_command c = true -> (forall d n p v, c <> CSetConfigParameter d n p v) ->
  step y m c = Ok (b, m') -> mg_main m' = mg_main m /\ recordings m' = recordings m /\ (always_allowed c = false -> mg_doms m' = mg_doms m).
Proof.
  intros y m c b m' T Tc Ns H.
  assert (forall n f s', ds_on n f (mg_doms m) = Ok (b, s') -> (forall d b d', f d = Ok (b, d') -> dm_id d' = dm_id d /\ dm_elems d' = dm_elems d /\ dm_last d' = dm_last d
            /\ map (fun c => (cf_id c, cf_areas c)) (dm_configs d') = map (fun c => (cf_id c, cf_areas c)) (dm_configs d)) -> recordings (with_doms m s') = recordings m) as G.
  { intros n f s' Hf Kf. destruct (ds_on_cases n f (mg_doms m) b s' Hf) as [[_ [_ ->]]|[l1 [d [l2 [d' [_ [E [_ [Ef ->]]]]]]]]]; [reflexivity|].
    unfold recordings. cbn [mg_doms with_doms ds_list]. rewrite E, !map_app. cbn [map]. destruct (Kf _ _ _ Ef) as [-> [-> [-> ->]]]. reflexivity. }
  assert (forall n f d b d', dm_on_config n f d = Ok (b, d') -> (forall k b k', f k = Ok (b, k') -> cf_id k' = cf_id k /\ cf_areas k' = cf_areas k) ->
            dm_id d' = dm_id d /\ dm_elems d' = dm_elems d /\ dm_last d' = dm_last d /\ map (fun c => (cf_id c, cf_areas c)) (dm_configs d') = map (fun c => (cf_id c, cf_areas c)) (dm_configs d)) as C.
  { intros n f d b0 d' Hf Kf. destruct (dm_on_config_cases n f d b0 d' Hf) as [[_ [_ ->]]|[l1 [k [l2 [k' [_ [E [_ [Ef ->]]]]]]]]]; auto.
    cbn [dm_id dm_elems dm_last dm_configs with_configs]. rewrite E, !map_app. cbn [map]. destruct (Kf _ _ _ Ef) as [-> ->]. auto. }
  destruct c; try discriminate; cbn [step] in H; unfold tuned in H; rewrite ?T in H;
    try (inversion H; subst; cbn [always_allowed] in *; repeat split; auto; discriminate).
  - exfalso. eapply Ns. reflexivity.
  - unfold set_tuning in H. rewrite T in H. destruct on; cbn [Bool.eqb andb] in H; [|inversion H; subst; auto]. destruct (negb (mg_allowed m)); inversion H; subst; auto.
  - unfold set_autosync, do_sync in H. destruct (on && negb (mg_autosync m)); [|inversion H; subst; auto]. destruct (mg_autosync m); [inversion H; subst; auto|].
    destruct (sync_set _ _ _ _) as [[ok er] tr]. destruct ok; inversion H; subst; auto.
  - unfold do_sync in H. destruct (mg_autosync m); [inversion H; subst; auto|]. destruct (sync_set _ _ _ _) as [[ok er] tr]. inversion H; subst; auto.
  - unfold on_doms, ds_rename in H. cbn [obind] in H. split; [inversion H; subst; auto|]. split; [|discriminate].
    destruct (ds_find name (mg_doms m)) as [d|] eqn:Ed; [|cbn [fst snd] in H; inversion H; subst; auto].
    destruct (existsb _ (ds_list (mg_doms m))); [cbn [fst snd] in H; inversion H; subst; auto|].
    destruct (ds_find_split name (mg_doms m) d Ed) as [l1 [l2 [E1 [E2 E3]]]]. rewrite E1, upd_domain_split in H by auto. cbn [obind fst snd] in H. inversion H; subst.
    unfold recordings. cbn [mg_doms with_doms ds_list]. rewrite E1, !map_app. reflexivity.
  - apply on_doms_inv in H. destruct H as [s [H ->]]. split; auto. split; [|discriminate]. apply (G dom _ s H). intros d b0 d' Hd. inversion Hd as [Hr]. unfold dm_rename_config in Hr.
    destruct (dm_find conf d) as [k|] eqn:Ek; [|inversion Hr; subst; auto]. destruct (existsb _ (dm_configs d)); [inversion Hr; subst; auto|].
    destruct (dm_find_split conf d k Ek) as [l1 [l2 [E1 [E2 E3]]]]. rewrite E1, upd_config_split in Hr by auto. cbn [obind fst snd] in Hr. inversion Hr; subst.
    cbn [dm_id dm_elems dm_last dm_configs with_configs]. rewrite E1, !map_app. auto.
  - apply on_doms_inv in H. destruct H as [s [H ->]]. split; auto. split; [|discriminate]. apply (G dom _ s H). intros d b0 d' Hd. apply (C _ _ _ _ _ Hd). intros k b1 k' Hk.
    cbv beta in Hk. destruct (set_application_rule (mg_crits m) text (cf_rule k)) as [[b2 r]| | |]; try discriminate. cbn [obind fst snd] in Hk. inversion Hk; subst. auto.
  - apply on_doms_inv in H. destruct H as [s [H ->]]. split; auto. split; [|discriminate]. apply (G dom _ s H). intros d b0 d' Hd. apply (C _ _ _ _ _ Hd). intros k b1 k' Hk. inversion Hk; subst. auto.
Qed.
Print Assumptions C28_tuning_off_partial.

(** Concrete: demo_state is out of tuning mode and has two domains. *)
Example C28_nonvacuous : mg_tuning demo_state = false /\ List.length (recordings demo_state) = 2
  /\ step demo demo_state (CSetParameter (lit "/Sys/Aux/x") (lit "7")) = Ok (false, demo_state) /\ step demo demo_state CDeleteAllDomains = Ok (false, demo_state)
  /\ exists m', step demo demo_state (CRenameDomain (lit "D1") (lit "Main")) = Ok (true, m').
Proof. split; [reflexivity|]. split; [reflexivity|]. split; [vm_compute; reflexivity|]. split; [vm_compute; reflexivity|]. eexists. vm_compute. reflexivity. Qed.

(** setConfigurationParameter changes a recorded setting out of tuning mode; on the last applied configuration it changes the
    parameter itself. *)
Theorem C28_settings_protected_refuted : exists y m dn cn path v m', system_ok y /\ reachable y m /\ mg_tuning m = false
  /\ step y m (CSetConfigParameter dn cn path v) = Ok (true, m') /\ recordings m' <> recordings m /\ get_parameter y path m' <> get_parameter y path m.
Proof.
  exists demo, demo_state, (lit "D1"), (lit "Other"), (lit "/Sys/Sub/blk/a"), (lit "7"). eexists. split; [apply demo_ok|]. split; [apply demo_reachable|]. split; [reflexivity|].
  split; [vm_compute; reflexivity|]. split; vm_compute; discriminate.
Qed.
Print Assumptions C28_settings_protected_refuted.

(** Renaming a configuration, and changing its rule, also work out of tuning mode: the next application differs. *)
Theorem C28_rules_protected_refuted : exists y m dn cn m1 m2 m3 path, system_ok y /\ reachable y m /\ mg_tuning m = false
  /\ step y m (CClearRule dn cn) = Ok (true, m1) /\ step y (with_crits m (crits_set (mg_crits m) 0 1)) (CApply []) = Ok (true, m2)
  /\ step y (with_crits m1 (crits_set (mg_crits m1) 0 1)) (CApply []) = Ok (true, m3) /\ get_parameter y path m2 <> get_parameter y path m3.
Proof.
  exists demo, demo_state, (lit "D1"), (lit "Call"). do 3 eexists. exists (lit "/Sys/Sub/blk/a"). split; [apply demo_ok|]. split; [apply demo_reachable|]. split; [reflexivity|].
  split; [vm_compute; reflexivity|]. split; [vm_compute; reflexivity|]. split; [vm_compute; reflexivity|]. vm_compute. discriminate.
Qed.
Print Assumptions C28_rules_protected_refuted.

(** ** C30 *)

(** Commands that do not ask for a synchronisation. *)
Definition quiet (c : cmd) : bool :=
  match c with CSync | CAutoSync true | CTuning false _ | CApply _ | CHandleSet _ _ => false | _ => true end.

Lemma write_quiet : forall y p o m b m', write_main y p false o m = Ok (b, m') -> mg_trace m' = mg_trace m.
Proof. intros y p o m b m' H. unfold write_main in H. destruct o as [[ok bb]| | |]; try discriminate. cbn [obind fst snd sync_param] in H. destruct ok; inversion H; subst; auto. Qed.

Lemma live_quiet : forall y path v m b m', mg_autosync m = false -> set_live y path v m = Ok (b, m') -> mg_trace m' = mg_trace m.
Proof.
  intros y path v m b m' A H. unfold set_live in H. destruct (param_of (sy_root y) path) as [[p r]|]; [|inversion H; subst; auto]. rewrite A in H. apply write_quiet in H. auto.
Qed.

Lemma quiet_step : forall y m c b m', system_ok y -> mgr_ok y m -> mg_autosync m = false /\ quiet c = true -> step y m c = Ok (b, m') ->
  mg_trace m' = mg_trace m /\ mg_autosync m' = false.
Proof.
  intros y m c b m' Sy K [A Q] H. pose proof Sy as [Hs _].
  assert (forall k, tuned m k = Ok (b, m') -> (k = Ok (b, m') -> mg_trace m' = mg_trace m /\ mg_autosync m' = false) -> mg_trace m' = mg_trace m /\ mg_autosync m' = false) as T.
  { intros k Hk Kk. apply tuned_inv in Hk. destruct Hk as [[_ [_ ->]]|[_ Hk]]; auto. }
  assert (forall o, on_doms m o = Ok (b, m') -> mg_trace m' = mg_trace m /\ mg_autosync m' = false) as D.
  { intros o Ho. apply on_doms_inv in Ho. destruct Ho as [s [_ ->]]. auto. }
  assert (forall path f, on_located y path m f = Ok (b, m') -> mg_trace m' = mg_trace m /\ mg_autosync m' = false) as L.
  { intros path f Hf. unfold on_located in Hf. destruct (locate (sy_root y) path); [eauto|inversion Hf; subst; auto]. }
  assert (forall path v, set_live y path v m = Ok (b, m') -> mg_trace m' = mg_trace m /\ mg_autosync m' = false) as S.
  { intros path v Hv. split; [apply (live_quiet y path v m b m'); auto|]. apply set_live_inv in Hv. destruct Hv as [_ [_ [_ ->]]]. auto. }
  destruct c; try discriminate; cbn [step] in H; try (apply T in H; auto; fail); try (eapply D; eauto; fail);
    try (apply T in H; [auto|]; eauto; fail).
  - unfold set_recorded in H. destruct (locate (sy_root y) path) as [p|]; [|inversion H; subst; auto]. destruct (ds_find_blackboard dom conf p (mg_doms m)) as [[[d c] e]|]; [|inversion H; subst; auto].
    destruct (access_set _ _ _ _ _ _) as [[ok bb]| | |]; try discriminate. cbn [obind fst snd] in H. destruct (ds_edit _ _ _ _ _) as [[b1 s1]| | |]; try discriminate. cbn [obind fst snd] in H.
    destruct ok; [destruct (is_last d c)|]; try (inversion H; subst; auto; fail).
    split; [apply (live_quiet y path value (with_doms m s1) b m'); auto|]. apply set_live_inv in H. destruct H as [_ [_ [_ ->]]]. auto.
  - destruct on; [|discriminate]. unfold set_tuning in H. destruct (Bool.eqb true (mg_tuning m)); [inversion H; subst; auto|]. destruct (true && negb (mg_allowed m)); inversion H; subst; auto.
  - destruct on; [discriminate|]. unfold set_autosync in H. cbn [andb] in H. inversion H; subst; auto.
  - inversion H; subst; auto.
  - inversion H; subst; auto.
  - apply T in H; auto. intros Hr. destruct (ds_restore_spec y dom conf (mg_autosync m) (mg_doms m) (mg_main m) (mg_trace m) Hs (proj1 K) (proj2 (proj2 K))) as [b1 [s1 [main1 [errs [tr1 [R [_ [_ [_ [R1 [R2 R3]]]]]]]]]]].
    rewrite R in Hr. cbn [obind] in Hr. inversion Hr; subst. cbn [mg_trace mg_autosync with_trace with_main with_doms]. split; auto.
    destruct (ds_find dom (mg_doms m)) as [d|]; [|destruct (R1 eq_refl) as [_ [_ [_ [_ ->]]]]; auto].
    destruct (dm_find conf d) as [c|] eqn:Ec; [|destruct (R2 d eq_refl Ec) as [_ [_ [_ [_ ->]]]]; auto].
    destruct (R3 d c eq_refl Ec) as [l1 [l2 [evs [_ [_ [_ [_ [-> [_ [E _]]]]]]]]]]. rewrite (E A), app_nil_r. auto.
  - inversion H; subst; auto.
  - unfold handle_bytes in H. rewrite A in H. destruct (elem_at (sy_root y) p); [|inversion H; subst; auto]. destruct (set_bytes _ _ _ _ _); inversion H; subst; auto.
Qed.

(** While auto-sync is off, a history of commands that do not ask for a synchronisation makes no access to the hardware. *)
Theorem C30_no_push : forall y m cs bs m', system_ok y -> reachable y m -> mg_autosync m = false -> Forall (fun c => quiet c = true) cs ->
  run y m cs = Ok (bs, m') -> mg_trace m' = mg_trace m /\ mg_autosync m' = false.
Proof.
  intros y m cs bs m' Sy R A F H. destruct (reachable_ok y m Sy R) as [K _].
  apply (run_inv y (fun x => mg_trace x = mg_trace m /\ mg_autosync x = false) (fun c => quiet c = true) Sy) with (cs := cs) (m := m) (bs := bs); auto.
  intros m0 c b m1 K0 [T0 A0] Q S. destruct (quiet_step y m0 c b m1 Sy K0 (conj A0 Q) S) as [-> ->]. auto.
Qed.
Print Assumptions C30_no_push.

(** The calls of a complete synchronisation: each syncer of the structure once, with the current memory. *)
Definition full_push (y : system) (main : blackboard) (evs : list event) : Prop :=
  NoDup (map ev_syncer evs) /\ Forall (fun v => ev_mem v = main) evs
  /\ forall s, In s (map ev_syncer evs) <-> exists q, sy_own y q = Some s /\ elem_at (sy_root y) q <> None.

Lemma sync_push : forall y m, system_ok y -> mg_autosync m = false ->
  exists b evs, do_sync y m = (b, with_trace m (mg_trace m ++ evs)) /\ full_push y (mg_main m) evs /\ b = forallb ev_ok evs.
Proof.
  intros y m [[W _] O] A. unfold do_sync. rewrite A. destruct (sync_set y (syncer_set y []) (mg_main m) (mg_trace m)) as [[ok errs] tr] eqn:E.
  destruct (sync_set_spec _ _ _ _ _ _ _ E) as [evs [-> [E1 [E2 [E3 _]]]]]. exists ok, evs. split; auto. split; auto. split; [rewrite E1; apply sorted_nodup, syncer_set_sorted|]. split; auto.
  intros s. rewrite E1, (serves_linked y s [] O) by (destruct (sy_root y); discriminate). unfold serves. split; intros [q [H1 H2]]; exists q; [tauto|]. split; [right; exists q; auto|auto].
Qed.

(** sync pushes the whole structure, succeeds exactly when all the pushes do, and changes nothing else; it is refused when auto-sync is on. *)
Theorem C30_sync : forall y m b m', system_ok y -> step y m CSync = Ok (b, m') ->
  (mg_autosync m = true -> b = false /\ m' = m)
  /\ (mg_autosync m = false -> exists evs, m' = with_trace m (mg_trace m ++ evs) /\ full_push y (mg_main m) evs /\ (b = true <-> forall v, In v evs -> ev_ok v = true)).
Proof.
  intros y m b m' Sy H. cbn [step] in H. split; intros A.
  - unfold do_sync in H. rewrite A in H. inversion H; subst; auto.
  - destruct (sync_push y m Sy A) as [b1 [evs [E [P B]]]]. rewrite E in H. inversion H; subst. exists evs. split; auto. split; auto. apply forallb_forall.
Qed.
Print Assumptions C30_sync.

(** Switching auto-sync back on pushes the whole structure too; it stays off when a push fails. *)
Theorem C30_autosync_on : forall y m b m', system_ok y -> mg_autosync m = false -> step y m (CAutoSync true) = Ok (b, m') ->
  mg_autosync m' = b /\ mg_main m' = mg_main m /\ mg_doms m' = mg_doms m
  /\ exists evs, mg_trace m' = mg_trace m ++ evs /\ full_push y (mg_main m) evs /\ (b = true <-> forall v, In v evs -> ev_ok v = true).
Proof.
  intros y m b m' Sy A H. cbn [step] in H. unfold set_autosync in H. rewrite A in H. cbn [andb negb] in H. destruct (sync_push y m Sy A) as [b1 [evs [E [P B]]]]. rewrite E in H.
  assert (b1 = true <-> forall v, In v evs -> ev_ok v = true) as Bs by (rewrite B; apply forallb_forall).
  destruct b1; inversion H; subst; cbn [mg_autosync mg_main mg_doms mg_trace with_autosync with_trace]; repeat (split; auto); exists evs; auto.
Qed.
Print Assumptions C30_autosync_on.

(** Every parameter that has a syncer is pushed. *)
Theorem C30_every_parameter_pushed : forall y main evs q e s, full_push y main evs -> elem_at (sy_root y) q = Some e -> get_syncer y q = Some s ->
  exists v, In v evs /\ ev_syncer v = s /\ ev_mem v = main.
Proof.
  intros y main evs q e s [_ [F S]] E G. apply get_syncer_Some in G. destruct G as [p [Ap O]]. assert (In s (map ev_syncer evs)) as H.
  { apply S. exists p. split; auto. apply (above_exists _ p q); auto. congruence. }
  apply in_map_iff in H. destruct H as [v [V1 V2]]. exists v. split; auto. split; auto. rewrite Forall_forall in F. auto.
Qed.
Print Assumptions C30_every_parameter_pushed.

Example C30_nonvacuous :
  let m := demo_after demo (demo_tuned_cmds ++ [CAutoSync false]) in
  let cs := [CSetParameter (lit "/Sys/Aux/x") (lit "7"); CRestore (lit "D1") (lit "Call"); CSetConfigParameter (lit "D1") (lit "Call") (lit "/Sys/Sub/blk/b") (lit "9"); CHandleBytes [1; 0] [zero; zero]] in
  mg_autosync m = false /\ forallb quiet cs = true /\ (exists m', run demo m cs = Ok ([true; true; true; true], m'))
  /\ match step demo m (CAutoSync true) with Ok (b, m') => (b, map ev_syncer (skipn (List.length (mg_trace m)) (mg_trace m'))) = (true, [10; 11; 12; 20]) | _ => False end.
Proof. split; [vm_compute; reflexivity|]. split; [reflexivity|]. split; [eexists; vm_compute; reflexivity|vm_compute; reflexivity]. Qed.

(** The setters of a client handle push to the hardware though auto-sync is off. *)
Theorem C30_handle_refuted : exists y m p v m', system_ok y /\ reachable y m /\ mg_autosync m = false /\ step y m (CHandleSet p v) = Ok (true, m') /\ mg_trace m' <> mg_trace m.
Proof.
  exists demo, (demo_after demo (demo_cmds ++ [CAutoSync false])), [1; 0], (HVal (UUInt 7)). eexists. split; [apply demo_ok|].
  split; [exists demo_start, (demo_cmds ++ [CAutoSync false]), (repeat true 21); split; [exact demo_started|vm_compute; reflexivity]|].
  split; [vm_compute; reflexivity|]. split; [vm_compute; reflexivity|]. intros C. apply (f_equal (@List.length event)) in C. vm_compute in C. discriminate.
Qed.
Print Assumptions C30_handle_refuted.

(** So does the application of configurations. *)
Theorem C30_apply_refuted : exists y m need m', system_ok y /\ reachable y m /\ mg_autosync m = false /\ step y m (CApply need) = Ok (true, m') /\ mg_trace m' <> mg_trace m.
Proof.
  exists demo, (demo_after demo (demo_cmds ++ [CAutoSync false; CCriterion 0 1%Z])), []. eexists. split; [apply demo_ok|].
  split; [exists demo_start, (demo_cmds ++ [CAutoSync false; CCriterion 0 1%Z]), (repeat true 22); split; [exact demo_started|vm_compute; reflexivity]|].
  split; [vm_compute; reflexivity|]. split; [vm_compute; reflexivity|]. intros C. apply (f_equal (@List.length event)) in C. vm_compute in C. discriminate.
Qed.
Print Assumptions C30_apply_refuted.

(** ** C31 *)

(** A set of syncers: each one is called once, whatever the results of the others; success is the success of all; the errors are
    those of the syncers that failed. *)
Theorem C31_all_called : forall y ss bb tr ok errs tr', sync_set y ss bb tr = (ok, errs, tr') ->
  exists evs, tr' = tr ++ evs /\ map ev_syncer evs = ss /\ Forall (fun v => ev_mem v = bb) evs
    /\ (ok = true <-> forall v, In v evs -> ev_ok v = true)
    /\ (forall s, In s errs <-> exists v, In v evs /\ ev_syncer v = s /\ ev_ok v = false)
    /\ List.length errs = List.length (filter (fun v => negb (ev_ok v)) evs)
    /\ (forall l v r, evs = l ++ v :: r -> ev_ok v = sy_hw y (tr ++ l) (ev_syncer v)).
Proof.
  intros y ss bb tr ok errs tr' H. destruct (sync_set_spec _ _ _ _ _ _ _ H) as [evs [E1 [E2 [E3 [E4 [E5 E6]]]]]]. exists evs. split; auto. split; auto. split; auto.
  split; [rewrite E4; apply forallb_forall|]. split; [|split; [rewrite E5, map_length; auto|auto]].
  intros s. rewrite E5, in_map_iff. split; intros [v [V1 V2]]; exists v; rewrite filter_In in *; [destruct V2 as [V2 V3]|destruct V2 as [V2 V3]]; split; auto.
  - split; auto. apply negb_true_iff in V3. auto.
  - split; auto. rewrite V3. auto.
Qed.
Print Assumptions C31_all_called.

(** The restoration of a configuration with auto-sync on: all the syncers that serve an element of the domain are called, whatever the
    results; it fails exactly when one of them does. *)
Theorem C31_restore : forall y m dn cn d c b m', system_ok y -> reachable y m -> mg_tuning m = true -> mg_autosync m = true ->
  ds_find dn (mg_doms m) = Some d -> dm_find cn d = Some c -> step y m (CRestore dn cn) = Ok (b, m') ->
  exists evs, mg_trace m' = mg_trace m ++ evs /\ (b = true <-> forall v, In v evs -> ev_ok v = true)
    /\ (forall s, In s (map ev_syncer evs) <-> exists p, In p (dm_elems d) /\ serves y s p)
    /\ (dm_aware d = false -> NoDup (map ev_syncer evs) /\ Forall (fun v => ev_mem v = mg_main m') evs).
Proof.
  intros y m dn cn d c b m' Sy R T A Fd Fc H. destruct (reachable_ok y m Sy R) as [K _]. pose proof Sy as [Hs O]. cbn [step] in H. unfold tuned in H. rewrite T in H.
  destruct (ds_restore_spec y dn cn (mg_autosync m) (mg_doms m) (mg_main m) (mg_trace m) Hs (proj1 K) (proj2 (proj2 K))) as [b1 [s1 [main1 [errs [tr1 [Rs [_ [_ [_ [_ [_ R3]]]]]]]]]]].
  rewrite Rs in H. cbn [obind] in H. inversion H; subst. cbn [mg_trace mg_main with_trace with_main with_doms].
  destruct (R3 d c Fd Fc) as [l1 [l2 [evs [_ [_ [-> [_ [-> [_ [_ [S1 S2]]]]]]]]]]]. exists evs. split; auto. split; [apply forallb_forall|].
  pose proof (ds_domain _ _ (proj1 K) d (ds_find_In _ _ _ Fd)) as Kd. pose proof (dm_find_In _ _ _ Fc) as Hc. destruct (dk_configs _ _ Kd c Hc) as [Pm Fo].
  destruct (dm_aware d) eqn:Aw.
  - split; [|discriminate]. destruct (area_syncs_split y (cf_areas c) evs O Fo (S1 A eq_refl)) as [parts [-> Fp]]. intros s. split.
    + intros Hi. apply in_map_iff in Hi. destruct Hi as [v [Ev Hv]]. apply in_concat in Hv. destruct Hv as [part [Hp Hv]]. destruct (Forall2_in_r _ _ _ _ _ _ Fp Hp) as [a [Ha [_ [Sa _]]]].
      exists (ar_pos a). split; [apply (Permutation.Permutation_in _ Pm), in_map; auto|]. apply Sa. rewrite <- Ev. apply in_map. auto.
    + intros [p [Hp Sp]]. apply (Permutation.Permutation_in _ (Permutation.Permutation_sym Pm)) in Hp. apply in_map_iff in Hp. destruct Hp as [a [<- Ha]].
      destruct (Forall2_in_l _ _ _ _ _ _ Fp Ha) as [part [Hpart [_ [Sa _]]]]. apply Sa in Sp. apply in_map_iff in Sp. destruct Sp as [v [Ev Hv]]. rewrite <- Ev. apply in_map. apply in_concat. eauto.
  - destruct (S2 A eq_refl) as [E1 E2]. rewrite E1. split; [intros s; apply domain_serves; auto|]. intros _. split; auto. apply sorted_nodup, (dk_sorted _ _ Kd).
Qed.
Print Assumptions C31_restore.

(** In the faulty system the syncer 11 always fails; the string, whose syncer is 12, is still pushed. *)
Example C31_nonvacuous :
  let m := demo_after demo_faulty demo_tuned_cmds in
  reachable demo_faulty m /\ mg_autosync m = true /\
  match step demo_faulty m (CRestore (lit "D2") (lit "On")) with
  | Ok (b, m') => (b, map (fun v => (ev_syncer v, ev_ok v)) (skipn (List.length (mg_trace m)) (mg_trace m'))) = (false, [(11, false); (12, true)])
  | _ => False
  end.
Proof.
  split; [|split; vm_compute; reflexivity]. eexists demo_start, demo_tuned_cmds, _. split; [exact demo_faulty_started|vm_compute; reflexivity].
Qed.

(** ** C33 *)

(** No domain holds the element or one of its ancestors. *)
Definition rogue (m : mgr) (q : list nat) : Prop := forall d, In d (ds_list (mg_doms m)) -> ~ covers d q.

Lemma attached_none : forall y s p, domains_ok y s -> (no_domain (ds_att s) p = true <-> forall d, In d (ds_list s) -> ~ In p (dm_elems d)).
Proof.
  intros y s p K. unfold no_domain, attached_to. split.
  - intros H d Hd Hp. assert (In (p, dm_id d) (ds_att s)) as I by (apply (ds_attached _ _ K); eauto).
    assert (In (p, dm_id d) (filter (fun x => pos_eqb (fst x) p) (ds_att s))) as J by (rewrite filter_In; split; auto; apply pos_eqb_refl).
    destruct (filter _ _); [destruct J|discriminate].
  - intros H. destruct (filter (fun x => pos_eqb (fst x) p) (ds_att s)) as [|[q id] l] eqn:E; auto. exfalso.
    assert (In (q, id) (filter (fun x => pos_eqb (fst x) p) (ds_att s))) as J by (rewrite E; left; auto). rewrite filter_In in J. destruct J as [J1 J2]. cbn [fst] in J2.
    apply pos_eqb_eq in J2. subst q. apply (ds_attached _ _ K) in J1. destruct J1 as [d [Hd [_ Hp]]]. apply (H d); auto.
Qed.

Lemma chain_rogue : forall y m q, domains_ok y (mg_doms m) -> ((forall r, above r q -> no_domain (ds_att (mg_doms m)) r = true) <-> rogue m q).
Proof.
  intros y m q K. split.
  - intros H d Hd [p [Hp A]]. specialize (H p A). rewrite (attached_none y _ p K) in H. apply (H d); auto.
  - intros H r A. rewrite (attached_none y _ r K). intros d Hd Hr. apply (H d Hd). exists r. auto.
Qed.

Lemma belonging_none : forall y m q, domains_ok y (mg_doms m) -> (belonging_domains (ds_att (mg_doms m)) q = [] <-> rogue m q).
Proof.
  intros y m q K. rewrite <- (chain_rogue y m q K). unfold belonging_domains. set (at_ := ds_att (mg_doms m)). clearbody at_.
  enough (forall rq, belonging_up at_ rq = [] <-> forall r, above r (rev rq) -> no_domain at_ r = true) as G by (rewrite (G (rev q)), rev_involutive; tauto). clear q K. intros rq.
  induction rq as [|i rq IH]; cbn [belonging_up].
  - rewrite app_nil_r. split.
    + intros H r [s Hs]. destruct r; [|discriminate]. unfold no_domain. change (@nil nat) with (rev (@nil nat)). rewrite H. auto.
    + intros H. specialize (H [] ltac:(exists []; auto)). unfold no_domain in H. simpl. destruct (attached_to at_ []); congruence.
  - split.
    + intros H. apply app_eq_nil in H. destruct H as [H1 H2]. pose proof (proj1 IH H2) as H3. intros r [s Hs]. destruct (list_eq_dec Nat.eq_dec s []) as [->|N].
      * rewrite app_nil_r in Hs. subst r. unfold no_domain. rewrite H1. auto.
      * destruct (exists_last N) as [s' [x ->]]. simpl in Hs. rewrite app_assoc in Hs. apply app_inj_tail in Hs. destruct Hs as [Hs _]. apply H3. exists s'. auto.
    + intros H. enough (attached_to at_ (rev (i :: rq)) = [] /\ belonging_up at_ rq = []) as [-> ->] by auto. split.
      * specialize (H (rev (i :: rq)) ltac:(exists []; rewrite app_nil_r; auto)). unfold no_domain in H. destruct (attached_to at_ (rev (i :: rq))); congruence.
      * apply IH. intros r [s Hs]. apply H. exists (s ++ [i]). simpl. rewrite Hs, app_assoc. auto.
Qed.

(** An element is rogue for a client handle exactly when no domain holds it, one of its ancestors or one of its descendants; for a
    parameter the descendants do not count, there is none. *)
Theorem C33_rogue_element : forall y m p e, system_ok y -> reachable y m -> elem_at (sy_root y) p = Some e ->
  (is_rogue (ds_att (mg_doms m)) e p = true <-> rogue m p /\ forall d q, In d (ds_list (mg_doms m)) -> In q (dm_elems d) -> ~ above p q).
Proof.
  intros y m p e Sy R E. destruct (reachable_ok y m Sy R) as [[K _] _]. unfold is_rogue, rogue_elements.
  destruct (aggregate_spec (no_domain (ds_att (mg_doms m))) e p) as [A1 [A2 A3]].
  assert ((match snd (aggregate (no_domain (ds_att (mg_doms m))) e p) with [q] => pos_eqb q p | _ => false end) = true <-> whole_tree (no_domain (ds_att (mg_doms m))) e p) as M.
  { split.
    - intros H. destruct (snd (aggregate (no_domain (ds_att (mg_doms m))) e p)) as [|q [|]] eqn:L; try discriminate. apply pos_eqb_eq in H. subst q.
      destruct (proj1 (A2 p) ltac:(left; auto)) as [r [Er Gr]]. assert (r = []) as -> by (apply (app_inv_head p); rewrite app_nil_r; auto). destruct Gr as [c [Ec [Wc _]]]. rewrite app_nil_r in Wc. destruct e. simpl in Ec. inversion Ec; subst. auto.
    - intros H. assert (gathered (no_domain (ds_att (mg_doms m))) e p []) as G0.
      { exists e. split; [destruct e; auto|]. rewrite app_nil_r. split; auto. intros r' s c' Es Ns. destruct r', s; try discriminate. congruence. }
      assert (forall x, In x (snd (aggregate (no_domain (ds_att (mg_doms m))) e p)) -> x = p) as U.
      { intros x Hx. apply A2 in Hx. destruct Hx as [r [-> Gr]]. rewrite <- (gathered_apart _ _ _ _ _ G0 Gr (ex_intro _ r eq_refl)). apply app_nil_r. }
      assert (In p (snd (aggregate (no_domain (ds_att (mg_doms m))) e p))) as I by (apply A2; exists []; rewrite app_nil_r; auto).
      destruct (snd (aggregate (no_domain (ds_att (mg_doms m))) e p)) as [|q [|q2 l]]; [destruct I|rewrite (U q ltac:(left; auto)); apply pos_eqb_refl|].
      exfalso. inversion A3 as [|? ? N _]. apply N. rewrite (U q ltac:(left; auto)), (U q2 ltac:(right; left; auto)). left. auto. }
  assert (whole_tree (no_domain (ds_att (mg_doms m))) e p <-> forall d q, In d (ds_list (mg_doms m)) -> In q (dm_elems d) -> ~ above p q) as Wt.
  { split.
    - intros H d q Hd Hq [r ->]. assert (elem_at e r <> None) as Er. { destruct (dk_exist _ _ (ds_domain _ _ K d Hd) _ Hq) as [x Hx]. rewrite elem_at_app, E in Hx. congruence. }
      specialize (H r Er). rewrite (attached_none y _ _ K) in H. apply (H d); auto.
    - intros H r Er. rewrite (attached_none y _ _ K). intros d Hd Hq. apply (H d (p ++ r) Hd Hq). exists r. auto. }
  destruct (belonging_domains (ds_att (mg_doms m)) p) as [|x l] eqn:B.
  - rewrite (belonging_none y m p K) in B. rewrite M, Wt. tauto.
  - split; [discriminate|]. intros [H _]. apply (belonging_none y m p K) in H. congruence.
Qed.
Print Assumptions C33_rogue_element.

Theorem C33_rogue_parameter : forall y m q e, system_ok y -> reachable y m -> param_at (sy_root y) q e -> (is_rogue (ds_att (mg_doms m)) e q = true <-> rogue m q).
Proof.
  intros y m q e Sy R Hq. rewrite (C33_rogue_element y m q e Sy R (proj1 Hq)). destruct (reachable_ok y m Sy R) as [[K _] _]. split; [tauto|]. intros H. split; auto. intros d p Hd Hp A.
  destruct (dk_exist _ _ (ds_domain _ _ K d Hd) _ Hp) as [x Hx]. pose proof (param_below y (proj1 Sy) q e Hq p A ltac:(congruence)). subst p. apply (H d Hd). exists q. split; auto.
Qed.
Print Assumptions C33_rogue_parameter.

(** listRogueElements: sub-trees listed once, that do not overlap, that exist, and that hold together exactly the rogue parameters; each
    of them is as large as possible. *)
Theorem C33_listed : forall y m, system_ok y -> reachable y m ->
  let l := rogue_elements (ds_att (mg_doms m)) (sy_root y) [] in
  separate l
  /\ (forall p, In p l -> exists e, elem_at (sy_root y) p = Some e /\ is_rogue (ds_att (mg_doms m)) e p = true)
  /\ (forall q e, param_at (sy_root y) q e -> ((exists p, In p l /\ above p q) <-> rogue m q))
  /\ (forall p p' e', In p l -> above p' p -> p' <> p -> elem_at (sy_root y) p' = Some e' -> is_rogue (ds_att (mg_doms m)) e' p' = false).
Proof.
  intros y m Sy R l. destruct (reachable_ok y m Sy R) as [[K _] _]. destruct (aggregate_spec (no_domain (ds_att (mg_doms m))) (sy_root y) []) as [_ [A2 A3]]. fold (rogue_elements (ds_att (mg_doms m)) (sy_root y) []) in A2, A3. fold l in A2, A3.
  assert (forall p, In p l <-> gathered (no_domain (ds_att (mg_doms m))) (sy_root y) [] p) as A by (intros p; rewrite A2; split; [intros [r [-> G]]; auto|intros G; exists p; auto]). clear A2.
  assert (forall p c, gathered (no_domain (ds_att (mg_doms m))) (sy_root y) [] p -> elem_at (sy_root y) p = Some c -> is_rogue (ds_att (mg_doms m)) c p = true) as Rg.
  { intros p c [c0 [E0 [W C]]] E. assert (c0 = c) as -> by congruence. apply (C33_rogue_element y m p c Sy R E). cbn [app] in *. split.
    - apply (chain_rogue y m p K). intros r [s Hs]. destruct s as [|i s]; [rewrite app_nil_r in Hs; subst r; apply (whole_here _ _ _ W)|].
      destruct (elem_at (sy_root y) r) as [c'|] eqn:E'; [apply (C r (i :: s) c' Hs ltac:(discriminate) E')|]. exfalso. apply (above_exists (sy_root y) r p); [exists (i :: s); auto|congruence|auto].
    - intros d q Hd Hq [s ->]. specialize (W s). destruct (dk_exist _ _ (ds_domain _ _ K d Hd) _ Hq) as [x Hx]. rewrite elem_at_app, E in Hx. specialize (W ltac:(congruence)). rewrite (attached_none y _ _ K) in W. apply (W d); auto. }
  split; [|split; [|split]].
  - split; auto. intros p q Hp Hq N. apply A in Hp, Hq. split; intros C; apply N; [eapply gathered_apart; eauto|symmetry; eapply gathered_apart; eauto].
  - intros p Hp. apply A in Hp. pose proof Hp as [c [E _]]. eauto.
  - intros q e Hq. rewrite <- (chain_rogue y m q K). pose proof (gathered_covers (no_domain (ds_att (mg_doms m))) (sy_root y) [] q e (proj1 Hq) (param_leaf y q e Sy Hq)) as G. cbn [app] in G. rewrite <- G.
    split; intros [p [H1 H2]]; exists p; split; auto; apply A; auto.
  - intros p p' e' Hp [s Hs] N E'. apply A in Hp. destruct Hp as [c [_ [_ C]]]. destruct s as [|i s]; [rewrite app_nil_r in Hs; congruence|]. destruct (C p' (i :: s) e' Hs ltac:(discriminate) E') as [_ Nw]. cbn [app] in Nw.
    destruct (is_rogue (ds_att (mg_doms m)) e' p') eqn:I; auto. exfalso. apply Nw. apply (C33_rogue_element y m p' e' Sy R E') in I. destruct I as [_ I]. intros r Er. rewrite (attached_none y _ _ K). intros d Hd Hq. apply (I d (p' ++ r) Hd Hq). exists r. auto.
Qed.
Print Assumptions C33_listed.

(** In the demo, the second subsystem and, after the string is removed from its domain, the string. *)
Example C33_nonvacuous :
  let m := demo_after demo (demo_tuned_cmds ++ [CRemoveElement (lit "D2") (lit "/Sys/Sub/str")]) in
  map (fun x => rogue_elements (ds_att (mg_doms x)) demo_tree []) [demo_tuned; m] = [[[1]]; [[0; 2]; [1]]]
  /\ map (fun p => match elem_at demo_tree p with Some e => is_rogue (ds_att (mg_doms m)) e p | None => false end) [[1]; [1; 0]; [0; 2]; [0; 0]; [0; 0; 1]; [0]] = [true; true; true; false; false; false].
Proof. split; vm_compute; reflexivity. Qed.

(** ** C32 *)

(** A set through a handle changes something only out of tuning mode and on a rogue parameter, and then nothing but the value of this
    parameter.  In tuning mode a valid request is reported as done and ignored.  On a parameter of a domain it is refused. *)
Theorem C32_handle_set : forall y m p v b m', system_ok y -> reachable y m -> hval_ok v -> step y m (CHandleSet p v) = Ok (b, m') ->
  (m' <> m -> mg_tuning m = false /\ rogue m p)
  /\ mg_doms m' = mg_doms m
  /\ (forall q e, param_at (sy_root y) q e -> q <> p -> same_setting (sy_root y) q 0 (mg_main m') 0 (mg_main m))
  /\ (mg_tuning m = true -> m' = m)
  /\ (~ rogue m p -> b = false /\ m' = m).
Proof.
  intros y m p v b m' Sy R Hv H. destruct (reachable_ok y m Sy R) as [K _]. pose proof Sy as [[W Fa] _]. pose proof K as [_ [_ L]]. cbn [step] in H.
  assert (forall e, check_set e p (hval_size v) (ds_att (mg_doms m)) = true -> elem_at (sy_root y) p = Some e -> rogue m p) as Rg.
  { intros e C E. apply check_set_spec in C. destruct C as [C1 [C2 _]]. apply (C33_rogue_element y m p e Sy R E) in C2. tauto. }
  assert ((mg_tuning m = false /\ rogue m p /\ exists e, param_at (sy_root y) p e /\ check_set e p (hval_size v) (ds_att (mg_doms m)) = true /\ handle_commit y p v m = Ok (b, m')) \/ (m' = m /\ (~ rogue m p -> b = false))) as X.
  { unfold handle_set in H. destruct (elem_at (sy_root y) p) as [e|] eqn:E; [|inversion H; subst; auto]. destruct (check_set e p (hval_size v) (ds_att (mg_doms m))) eqn:C; [|inversion H; subst; auto].
    pose proof (Rg e C eq_refl) as Rp. destruct (mg_tuning m) eqn:T; [inversion H; subst; right; split; auto; tauto|]. left. split; auto. split; auto. exists e. split; [split; auto; apply check_set_spec in C; tauto|auto]. }
  split; [|split; [|split; [|split]]].
  - intros N. destruct X as [X|[X _]]; [tauto|contradiction].
  - apply handle_set_keeps in H. tauto.
  - intros q e Hq D. destruct X as [[_ [_ [e0 [H0 [C Hc]]]]]|[-> _]]; [|intros i Ow; auto].
    unfold handle_commit in Hc. rewrite (proj1 H0) in Hc. unfold write_main in Hc. destruct (handle_write (e_kind e0) v (offset (sy_root y) p) (mg_main m)) as [[ok bb]| | |] eqn:Eh; try discriminate. cbn [obind fst snd] in Hc.
    assert (mg_main m' = bb) as -> by (destruct ok; [destruct (sync_param _ _ _ _ _)|]; inversion Hc; subst; auto).
    assert (offset (sy_root y) p - 0 + storage_size e0 <= List.length (mg_main m)) as Fp.
    { rewrite Nat.sub_0_r, L, (storage_size_kind e0 (proj2 H0)). apply (param_storage_fits _ _ _ W H0). }
    apply check_set_spec in C. destruct C as [_ [_ [C _]]].
    destruct (handle_write_bits (sy_root y) p e0 v 0 (mg_main m) ok bb W H0 ltac:(lia) Fp Hv C) as [_ G]; [rewrite Nat.sub_0_r; auto|].
    intros i Ow. specialize (G i ltac:(lia)). unfold bits_at in G. apply G. intros Op. apply (owns_apart (sy_root y) p q i W Fa); auto. apply (params_unrelated (sy_root y) p q e0 e); auto.
  - intros T. destruct X as [[X _]|[X _]]; [congruence|auto].
  - intros N. destruct X as [[_ [X _]]|[-> X]]; [contradiction|auto].
Qed.
Print Assumptions C32_handle_set.

(** The set is tested, then committed under the lock.  When other commands run in between, the commit is the same as a set alone, as long
    as the parameter is still rogue and tuning mode still off at that moment.  Missing: without this condition (refuted below). *)
Theorem C32_interleaved_partial : forall y m0 cs bs m1 p e v, system_ok y -> reachable y m0 -> elem_at (sy_root y) p = Some e ->
  check_set e p (hval_size v) (ds_att (mg_doms m0)) = true -> mg_tuning m0 = false -> run y m0 cs = Ok (bs, m1) ->
  mg_tuning m1 = false -> rogue m1 p -> handle_commit y p v m1 = step y m1 (CHandleSet p v).
Proof.
  intros y m0 cs bs m1 p e v Sy R E C T0 Hr T1 Rg. pose proof (run_reachable _ _ _ _ _ R Hr) as R1.
  cbn [step]. unfold handle_set. rewrite E, T1. pose proof (check_set_spec _ _ _ _ C) as [C1 _].
  assert (is_rogue (ds_att (mg_doms m1)) e p = true) as I by (apply (C33_rogue_parameter y m1 p e Sy R1); [split; auto|auto]).
  unfold check_set in C |- *. rewrite I. apply andb_true_iff in C. destruct C as [C C3]. apply andb_true_iff in C. destruct C as [C _]. rewrite C, C3. reflexivity.
Qed.
Print Assumptions C32_interleaved_partial.

Lemma not_rogue : forall m p i l j q, nth_error (map dm_elems (ds_list (mg_doms m))) i = Some l -> nth_error l j = Some q ->
  firstn (List.length q) p = q -> ~ rogue m p.
Proof.
  intros m p i l j q H1 H2 H3 R. apply nth_error_In in H1. apply in_map_iff in H1. destruct H1 as [d [<- Hd]]. apply (R d Hd).
  exists q. split; [apply (nth_error_In _ _ H2)|]. exists (skipn (List.length q) p). rewrite <- H3 at 1. symmetry. apply firstn_skipn.
Qed.

Example C32_nonvacuous : exists m1 m2, reachable demo demo_state /\ rogue demo_state [1; 0] /\ ~ rogue demo_state [0; 0; 0]
  /\ step demo demo_state (CHandleSet [1; 0] (HVal (UUInt 7))) = Ok (true, m1) /\ get_parameter demo (lit "/Sys/Aux/x") m1 = Ok (lit "7")
  /\ step demo demo_state (CHandleSet [0; 0; 0] (HVal (UUInt 7))) = Ok (false, demo_state)
  /\ step demo demo_tuned (CHandleSet [1; 0] (HVal (UUInt 7))) = Ok (true, demo_tuned)
  /\ run demo demo_state [CCriterion 0 1%Z; CApply []] = Ok ([true; true], m2) /\ mg_tuning m2 = false.
Proof.
  do 2 eexists. split; [apply demo_reachable|]. split; [|split; [|split; [vm_compute; reflexivity|]]].
  - intros d Hd [p [Hp [r Hr]]]. apply (in_map dm_elems) in Hd.
    assert (map dm_elems (ds_list (mg_doms demo_state)) = [[[0; 0]]; [[0; 1]; [0; 2]]]) as E by (vm_compute; reflexivity).
    rewrite E in Hd. clear E. destruct Hd as [Hd|[Hd|[]]]; rewrite <- Hd in Hp; [destruct Hp as [<-|[]]|destruct Hp as [<-|[<-|[]]]]; discriminate.
  - apply (not_rogue _ _ 0 [[0; 0]] 0 [0; 0]); vm_compute; reflexivity.
  - split; [vm_compute; reflexivity|]. split; [vm_compute; reflexivity|]. split; [vm_compute; reflexivity|]. split; vm_compute; reflexivity.
Qed.

(** Another thread enters tuning mode between the test and the commit: the set is then done in tuning mode. *)
Theorem C32_race_refuted : exists y m0 p e v m1 m2 path, system_ok y /\ reachable y m0 /\ elem_at (sy_root y) p = Some e
  /\ check_set e p (hval_size v) (ds_att (mg_doms m0)) = true /\ mg_tuning m0 = false
  /\ step y m0 (CTuning true []) = Ok (true, m1) /\ handle_commit y p v m1 = Ok (true, m2)
  /\ mg_tuning m2 = true /\ get_parameter y path m2 <> get_parameter y path m1.
Proof.
  exists demo, demo_state, [1; 0]. eexists. exists (HVal (UUInt 7)). do 2 eexists. exists (lit "/Sys/Aux/x"). split; [apply demo_ok|]. split; [apply demo_reachable|]. split; [reflexivity|].
  split; [reflexivity|]. split; [reflexivity|]. split; [vm_compute; reflexivity|]. split; [vm_compute; reflexivity|]. split; [reflexivity|]. vm_compute. discriminate.
Qed.
Print Assumptions C32_race_refuted.

(** The same for the domains: the parameter is put in a domain in between, and changed though it belongs to it. *)
Theorem C32_race_domain_refuted : exists y m0 p e v cs bs m1 m2 path, system_ok y /\ reachable y m0 /\ elem_at (sy_root y) p = Some e
  /\ check_set e p (hval_size v) (ds_att (mg_doms m0)) = true /\ mg_tuning m0 = false
  /\ run y m0 cs = Ok (bs, m1) /\ mg_tuning m1 = false /\ ~ rogue m1 p /\ handle_commit y p v m1 = Ok (true, m2) /\ get_parameter y path m2 <> get_parameter y path m1.
Proof.
  exists demo, demo_state, [1; 0]. eexists. exists (HVal (UUInt 7)), [CTuning true []; CAddElement (lit "D1") (lit "/Sys/Aux"); CTuning false []]. do 3 eexists. exists (lit "/Sys/Aux/x").
  split; [apply demo_ok|]. split; [apply demo_reachable|]. split; [reflexivity|]. split; [reflexivity|]. split; [reflexivity|]. split; [vm_compute; reflexivity|]. split; [reflexivity|].
  split; [|split; [vm_compute; reflexivity|vm_compute; discriminate]]. eapply (not_rogue _ _ 0 _ 1 [1]); vm_compute; reflexivity.
Qed.
Print Assumptions C32_race_domain_refuted.

(** The access by bytes is not protected: it changes a parameter of a domain, in tuning mode. *)
Theorem C32_bytes_refuted : exists y m p bytes m' path, system_ok y /\ reachable y m /\ mg_tuning m = true /\ ~ rogue m p
  /\ step y m (CHandleBytes p bytes) = Ok (true, m') /\ get_parameter y path m' <> get_parameter y path m.
Proof.
  exists demo, demo_tuned, [0; 0; 0], [ascii_of_nat 9; zero]. eexists. exists (lit "/Sys/Sub/blk/a"). split; [apply demo_ok|]. split; [apply demo_tuned_reachable|]. split; [reflexivity|].
  split; [|split; [vm_compute; reflexivity|vm_compute; discriminate]]. apply (not_rogue _ _ 0 [[0; 0]] 0 [0; 0]); vm_compute; reflexivity.
Qed.
Print Assumptions C32_bytes_refuted.

(** ** C49 *)

(** The value given has the shape of the parameter: a scalar for a scalar, as many values as cells for an array. *)
Definition shape_ok (e : elem) (v : hval) : Prop :=
  is_param (e_kind e) = true /\
  match v with
  | HVal _ | HStr _ => array_length (e_kind e) = 0
  | HVals l => array_length (e_kind e) <> 0 /\ List.length l = array_length (e_kind e)
  | HStrs l => array_length (e_kind e) <> 0 /\ List.length l = array_length (e_kind e)
  end.

Lemma same_main : forall m, with_main m (mg_main m) = m.
Proof. intros []. reflexivity. Qed.

(** A value of another shape is refused and changes nothing (in tuning mode: but for empty arrays, see below). *)
Theorem C49_setters : forall y m p v b m', system_ok y -> (mg_tuning m = true -> v <> HVals [] /\ v <> HStrs []) -> step y m (CHandleSet p v) = Ok (b, m') ->
  (forall e, elem_at (sy_root y) p = Some e -> ~ shape_ok e v) -> b = false /\ m' = m.
Proof.
  intros y m p v b m' [[W _] _] Tn H N. cbn [step] in H. unfold handle_set in H. destruct (elem_at (sy_root y) p) as [e|] eqn:E; [|inversion H; subst; auto].
  specialize (N e eq_refl). destruct (check_set e p (hval_size v) (ds_att (mg_doms m))) eqn:C; [|inversion H; subst; auto].
  apply check_set_spec in C. destruct C as [C1 [_ [C3 C4]]].
  assert ((v = HVals [] \/ v = HStrs []) /\ array_length (e_kind e) = 0) as [Em Sc].
  { assert (forall n, is_array n = false -> array_length n = 0) as A0 by (intros n Hn; unfold is_array in Hn; apply negb_false_iff, Nat.eqb_eq in Hn; auto).
    destruct v as [u|s|l|l]; cbn [hval_size] in *.
    - exfalso. apply N. split; auto.
    - exfalso. apply N. split; auto.
    - destruct l as [|x l]; [split; auto|]. exfalso. apply N. split; auto. rewrite <- C3; [split; [discriminate|auto]|discriminate].
    - destruct l as [|x l]; [split; auto|]. exfalso. apply N. split; auto. rewrite <- C3; [split; [discriminate|auto]|discriminate]. }
  destruct (mg_tuning m); [exfalso; destruct (Tn eq_refl); tauto|].
  unfold handle_commit in H. rewrite E in H. unfold write_main in H.
  assert (handle_write (e_kind e) v (offset (sy_root y) p) (mg_main m) = Ok (false, mg_main m)) as Hw.
  { pose proof (param_kind_wf _ _ _ W (conj E C1)) as Kw. destruct Em as [->| ->]; destruct (e_kind e); try reflexivity; cbn [array_length] in Sc; destruct Kw; lia. }
  rewrite Hw in H. cbn [obind fst snd] in H. rewrite same_main in H. inversion H; subst; auto.
Qed.
Print Assumptions C49_setters.

(** The getters: an error on anything but a parameter, of a scalar by an array getter, of an array by a scalar getter; the array getters
    give as many values as there are cells. *)
Theorem C49_getters : forall y m p h v, handle_get y p h m = Ok v ->
  exists e, param_at (sy_root y) p e /\
    match v with
    | HVal _ | HStr _ => array_length (e_kind e) = 0 /\ hkind_array h = false
    | HVals l => List.length l = array_length (e_kind e) /\ hkind_array h = true
    | HStrs l => List.length l = array_length (e_kind e) /\ hkind_array h = true
    end.
Proof.
  intros y m p h v H. unfold handle_get in H. destruct (elem_at (sy_root y) p) as [e|] eqn:E; [|discriminate]. destruct (check_get (e_kind e) (hkind_array h)) eqn:C; [|discriminate].
  unfold check_get in C. apply andb_true_iff in C. destruct C as [C1 C2]. exists e. split; [split; auto|].
  assert (forall t k n off bb l, array_get_vals t k n off bb = Ok l -> List.length l = n) as LV.
  { intros t k n. induction n as [|n IH]; intros off bb l Hl; cbn [array_get_vals] in Hl; [inversion Hl; auto|]. destruct (param_get_val t k off bb); try discriminate. cbn [obind] in Hl.
    destruct (array_get_vals t k n (off + pt_size t) bb) eqn:El; try discriminate. inversion Hl; subst. simpl. f_equal. eauto. }
  assert (forall t f n off bb l, array_get_list t f n off bb = Ok l -> List.length l = n) as LS.
  { intros t f n. induction n as [|n IH]; intros off bb l Hl; cbn [array_get_list] in Hl; [inversion Hl; auto|]. destruct (param_get_str t f off bb); try discriminate. cbn [obind] in Hl.
    destruct (array_get_list t f n (off + pt_size t) bb) eqn:El; try discriminate. inversion Hl; subst. simpl. f_equal. eauto. }
  destruct (e_kind e); destruct h; cbn [handle_read] in H; try discriminate; unfold omap, obind in H;
    match type of H with (match ?x with _ => _ end) = _ => destruct x eqn:Ex; try discriminate end; inversion H; subst; cbn [array_length hkind_array]; split; eauto.
Qed.
Print Assumptions C49_getters.

Theorem C49_getter_mismatch : forall y m p h, (forall e, elem_at (sy_root y) p = Some e -> is_param (e_kind e) = false \/ (hkind_array h = true <-> array_length (e_kind e) = 0)) ->
  handle_get y p h m = Err.
Proof.
  intros y m p h N. unfold handle_get. destruct (elem_at (sy_root y) p) as [e|] eqn:E; auto. replace (check_get (e_kind e) (hkind_array h)) with false; auto. symmetry.
  unfold check_get, is_array. destruct (N e eq_refl) as [->|X]; auto. destruct (is_param (e_kind e)); auto. cbn [andb]. destruct (hkind_array h), (array_length (e_kind e)); auto; exfalso; destruct X as [X1 X2]; auto; [specialize (X1 eq_refl)|specialize (X2 eq_refl)]; discriminate.
Qed.
Print Assumptions C49_getter_mismatch.

(** Out of the demo: the block is no parameter, the array has three cells. *)
Example C49_nonvacuous :
  let m := demo_start in
  map (fun v => match step demo m (CHandleSet [0; 0; 1] v) with Ok (b, _) => b | _ => false end)
    [HVals [UBool true; UBool false; UBool true]; HVals [UBool true; UBool false]; HVal (UBool true); HStrs [lit "1"; lit "0"; lit "1"]; HVals []] = [true; false; false; true; false]
  /\ step demo m (CHandleSet [0; 0] (HVal (UUInt 1))) = Ok (false, m) /\ step demo m (CHandleSet [0; 0; 0] (HVals [])) = Ok (false, m)
  /\ handle_get demo [0; 0; 1] (HKVals KBool) m = Ok (HVals [UBool false; UBool false; UBool false]) /\ handle_get demo [0; 0; 1] (HKVal KBool) m = Err /\ handle_get demo [0; 0] HKStr m = Err.
Proof. vm_compute. repeat split. Qed.

(** In tuning mode an empty array given to a scalar is reported as done. *)
Theorem C49_empty_array_refuted : exists y m p e v, system_ok y /\ reachable y m /\ elem_at (sy_root y) p = Some e /\ ~ shape_ok e v /\ step y m (CHandleSet p v) = Ok (true, m).
Proof.
  exists demo, demo_tuned, [1; 0]. eexists. exists (HVals []). split; [apply demo_ok|]. split; [apply demo_tuned_reachable|]. split; [reflexivity|]. split; [|vm_compute; reflexivity].
  intros [_ [H _]]. apply H. reflexivity.
Qed.
Print Assumptions C49_empty_array_refuted.

(** ** C57 *)

(** Whatever the commands, as long as no raw bytes are written over it through a handle, a parameter that starts with a value of its type
    always holds one, in the live memory and in every configuration. *)
Theorem C57_values_of_the_type : forall y m cs bs m' q e, system_ok y -> reachable y m -> param_at (sy_root y) q e -> valued y q e m -> Forall (typed q) cs ->
  run y m cs = Ok (bs, m') -> valued y q e m'.
Proof. intros y m cs bs m' q e Sy R Hq V F H. destruct (reachable_ok y m Sy R) as [K _]. apply (run_valued y cs m bs m' q e Sy K Hq F H V). Qed.
Print Assumptions C57_values_of_the_type.

(** A parameter whose value, read back from the hardware, is of its type when the framework is started, and whose valid recorded
    settings are, holds a value of its type from the start. *)
Theorem C57_from_start : forall y allowed cs s bb m q e, system_ok y -> loadable y cs s bb -> load y allowed cs s bb = Ok m -> param_at (sy_root y) q e ->
  value_ok (e_kind e) (offset (sy_root y) q) bb ->
  (forall d c a, In d (ds_list s) -> In c (dm_configs d) -> In a (cf_areas c) -> above (ar_pos a) q -> ar_valid a = true ->
     value_ok (e_kind e) (offset (sy_root y) q - offset (sy_root y) (ar_pos a)) (ar_bb a)) ->
  valued y q e m.
Proof. exact load_valued. Qed.
Print Assumptions C57_from_start.

(** A parameter that nobody writes, by name, by handle or by bytes, never gets a value that was not already there, live or recorded: any
    property of its value that holds everywhere at first always does. *)
Theorem C57_values_not_invented : forall y m cs bs m' q e (S : (nat -> bool) -> Prop), system_ok y -> reachable y m -> param_at (sy_root y) q e -> about (sy_root y) q S ->
  Forall (fun c => cmd_ok c /\ ~ writes y c q /\ ~ writes_bytes c q) cs -> run y m cs = Ok (bs, m') -> everywhere y q S m -> everywhere y q S m'.
Proof.
  intros y m cs bs m' q e S Sy R Hq Ab F H E. destruct (reachable_ok y m Sy R) as [K _]. rewrite Forall_forall in F.
  apply (run_everywhere y cs m bs m' q e S Sy K Hq Ab); auto; [rewrite Forall_forall; intros c Hc; apply F; auto|]. intros c Hc. destruct (F c Hc) as [_ [N1 N2]]. split; auto. intros W. contradiction.
Qed.
Print Assumptions C57_values_not_invented.

(** The bit field "low" of the demo starts with a value of its type, zero, and keeps one until [demo_tuned]; the integer "a", of range
    5 to 1000, starts out of its range. *)
Example C57_nonvacuous : exists e, param_at demo_tree [0; 1; 0] e /\ loadable demo demo_crits (Domains [] [] 0) (initial_blackboard demo_tree)
  /\ load demo true demo_crits (Domains [] [] 0) (initial_blackboard demo_tree) = Ok demo_start
  /\ value_ok (e_kind e) (offset demo_tree [0; 1; 0]) (initial_blackboard demo_tree) /\ valued demo [0; 1; 0] e demo_start
  /\ Forall (typed [0; 1; 0]) demo_tuned_cmds /\ run demo demo_start demo_tuned_cmds = Ok (repeat true 21, demo_tuned) /\ valued demo [0; 1; 0] e demo_tuned
  /\ get_parameter demo (lit "/Sys/Sub/blk/a") demo_start = Ok (lit "0").
Proof.
  exists (Elem (lit "low") (KdBit (BitType 0 3 7 1)) []). assert (param_at demo_tree [0; 1; 0] (Elem (lit "low") (KdBit (BitType 0 3 7 1)) [])) as H by (split; reflexivity).
  split; [exact H|]. assert (loadable demo demo_crits (Domains [] [] 0) (initial_blackboard demo_tree)) as Hl by (split; [exact demo_crits_ok|split; [apply no_domains_ok|split; [intros d c r []|reflexivity]]]).
  assert (load demo true demo_crits (Domains [] [] 0) (initial_blackboard demo_tree) = Ok demo_start) as E by (vm_compute; reflexivity).
  assert (value_ok (KdBit (BitType 0 3 7 1)) (offset demo_tree [0; 1; 0]) (initial_blackboard demo_tree)) as V by (exists 0%Z; split; [vm_compute; reflexivity|discriminate]).
  assert (valued demo [0; 1; 0] (Elem (lit "low") (KdBit (BitType 0 3 7 1)) []) demo_start) as V0 by (apply (C57_from_start demo true demo_crits (Domains [] [] 0) (initial_blackboard demo_tree)); auto; [apply demo_ok|intros d c a []]).
  assert (Forall (typed [0; 1; 0]) demo_tuned_cmds) as F by (repeat (constructor; [split; [exact I|intros []]|]); constructor).
  assert (run demo demo_start demo_tuned_cmds = Ok (repeat true 21, demo_tuned)) as R by (vm_compute; reflexivity).
  split; [exact Hl|]. split; [exact E|]. split; [exact V|]. split; [exact V0|]. split; [exact F|]. split; [exact R|]. split; [|vm_compute; reflexivity].
  apply (C57_values_of_the_type demo demo_start demo_tuned_cmds (repeat true 21)); auto; [apply demo_ok|]. exists demo_start, [], []. split; [exact demo_started|reflexivity].
Qed.
