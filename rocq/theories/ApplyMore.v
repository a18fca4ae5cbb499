(** Applying configurations: further lemmas, for the statements at the level of the commands. *)
From Coq Require Import List Arith ZArith Bool Sorted Lia.
From Verif Require Import Base BaseProofs BlackboardModel CriterionModel RuleModel RuleSpec RuleProofs TreeModel TreeSpec TreeProofs MemSpec MemProofs SyncModel SyncProofs DomainModel DomainSpec
  AreaProofs DomainProofs DomainInv DomainApply DomainsInv MgrModel MgrSpec MgrProofs MgrFlow MgrSkel Demo ApplySpec ApplyProofs ValueSpec ValueProofs ReadProofs.
Import ListNotations.
Local Open Scope nat_scope.

Lemma typed_step : forall y m c b m', reachable_typed y m -> all_typed c -> step y m c = Ok (b, m') -> reachable_typed y m'.
Proof.
  intros y m c b m' [m0 [cmds [bs [Ck [Sg [Ty H]]]]]] Tc Hs. exists m0, (cmds ++ [c]), (bs ++ [b]). split; auto. split; auto. split.
  - apply Forall_app. auto.
  - rewrite run_app, H. cbn [obind fst snd run]. rewrite Hs. cbn [obind fst snd]. auto.
Qed.

Lemma do_apply_fmt : forall y force need m m', do_apply y force need m = Ok m' -> mg_fmt m' = mg_fmt m.
Proof.
  intros y force need m m' H. unfold do_apply in H. destruct (ds_apply _ _ _ _ _ _ _) as [[[s bb] tr]| | |]; try discriminate. cbn [obind] in H. inversion H. reflexivity.
Qed.

Lemma state_reset : forall cs i, state_of (crits_reset cs) i = state_of cs i.
Proof. intros cs i. unfold state_of, crits_reset. rewrite nth_error_map. destruct (nth_error cs i); auto. Qed.

Lemma reset_twice : forall cs, crits_reset (crits_reset cs) = crits_reset cs.
Proof. intros cs. unfold crits_reset. rewrite map_map. apply map_ext. auto. Qed.

Lemma holds_ext : forall st st' r, (forall i, st i = st' i) -> holds st r -> holds st' r.
Proof.
  intros st st' r E H. induction H as [c w v H|l _ IH|l r I H IH].
  - constructor. rewrite <- E. auto.
  - constructor. auto.
  - econstructor; eauto.
Qed.

Lemma matches_ext : forall cs cs' c, (forall i, state_of cs i = state_of cs' i) -> matches cs c -> matches cs' c.
Proof. intros cs cs' c E [r [H1 H2]]. exists r. split; auto. eapply holds_ext; eauto. Qed.

Lemma first_match_ext : forall cs cs' d d' c, (forall i, state_of cs i = state_of cs' i) -> dm_configs d' = dm_configs d -> first_match cs d c -> first_match cs' d' c.
Proof.
  intros cs cs' d d' c E C [l1 [l2 [H1 [H2 H3]]]]. exists l1, l2. rewrite C. split; auto. split; [eapply matches_ext; eauto|].
  intros k Hk M. apply (H3 k Hk). eapply matches_ext; [|exact M]. auto.
Qed.

Lemma first_or_none : forall cs d, scoped cs d -> (exists c, first_match cs d c) \/ none_match cs d.
Proof.
  intros cs d S. destruct (dm_applicable cs d) as [c|] eqn:E; [left; exists c; apply applicable_first; auto|right; apply applicable_none; auto].
Qed.

Lemma idle : forall y m, system_ok y -> mgr_ok y m -> rules_ok m ->
  (forall d c, In d (ds_list (mg_doms m)) -> ~ switches (mg_crits m) false d c) ->
  do_apply y false [] m = Ok (with_crits m (crits_reset (mg_crits m))).
Proof.
  intros y m [Hst Hon] [K [V L]] Ru N. unfold do_apply.
  assert (forall d, In d (ds_list (mg_doms m)) -> chosen (mg_crits m) false d = None) as Nc.
  { intros d Hd. destruct (chosen (mg_crits m) false d) as [c|] eqn:E; auto. exfalso. apply (N d c Hd). apply chosen_switches; auto. apply rules_scoped; auto. }
  assert (forall l, (forall d, In d l -> In d (ds_list (mg_doms m))) -> taken (mg_crits m) false l = []) as Nt.
  { intros l Hl. destruct (taken (mg_crits m) false l) as [|c r] eqn:E; auto. exfalso.
    assert (In c (taken (mg_crits m) false l)) as I by (rewrite E; simpl; auto). apply taken_split in I. destruct I as [d [I1 I2]]. rewrite Nc in I2; auto. discriminate. }
  assert (map (applied (mg_crits m) false) (ds_list (mg_doms m)) = ds_list (mg_doms m)) as Ma.
  { rewrite <- map_id. apply map_ext_in. intros d Hd. pose proof (Nc d Hd) as C. unfold chosen, applied in *. destruct (dm_applicable (mg_crits m) d) as [c|]; auto.
    simpl in C. unfold is_last in C. destruct (dm_last d) as [i|] eqn:El; [|discriminate]. destruct (i =? cf_id c) eqn:Ei; [|discriminate]. apply Nat.eqb_eq in Ei. subst i.
    rewrite <- El. apply with_last_same. }
  assert (resync_syncers y [] = []) as Rs.
  { unfold resync_syncers. generalize (seq 0 (List.length (e_children (sy_root y)))). intros l. induction l as [|i l IH]; simpl; auto. }
  rewrite Rs. destruct (ds_apply_spec y (mg_crits m) false [] (mg_doms m) (mg_main m) (mg_trace m) Hst K L (SSorted_nil _)) as [mid [m2 [col [e1 [e2 [E1 [W1 [W2 [E2 [_ [E4 [_ E6]]]]]]]]]]]].
  rewrite Nt in W1 by (intros d Hd; unfold unaware in Hd; rewrite filter_In in Hd; tauto). rewrite Nt in W2 by (intros d Hd; rewrite filter_In in Hd; tauto). inversion W1; subst. inversion W2; subst.
  assert (map ev_syncer e1 = []) as Ce.
  { destruct (map ev_syncer e1) as [|x r] eqn:Ec; auto. exfalso. assert (In x (x :: r)) as I by (simpl; auto). apply E4 in I. destruct I as [[]|[d [I1 [I2 [I3 I4]]]]]. rewrite Nc in I3; auto. }
  apply map_eq_nil in Ce. subst e1. unfold aware_syncs in E6. rewrite Nt in E6 by (intros d Hd; rewrite filter_In in Hd; tauto). simpl in E6. inversion E6; subst.
  rewrite E1, Ma. cbn [obind]. rewrite !app_nil_r. destruct m as [dm ma tu al au ra he cr tr]; destruct dm; reflexivity.
Qed.

Lemma applied_idle : forall y m need m1 cs, system_ok y -> mgr_ok y m -> rules_ok m -> do_apply y false need m = Ok m1 ->
  (forall i, state_of cs i = state_of (mg_crits m) i) -> forall d c, In d (ds_list (mg_doms m1)) -> ~ switches cs false d c.
Proof.
  intros y m need m1 cs Sy K Ru H E d c Hd [F [X|X]]; [discriminate|].
  destruct (do_apply_spec y false need m Sy K Ru) as [m' [mid [e1 [ps [H1 [_ [_ [_ [_ [Fo _]]]]]]]]]]. rewrite H in H1. inversion H1; subst m'. clear H1.
  destruct (Forall2_in_r _ _ _ _ _ _ Fo Hd) as [d0 [Hd0 [S [L1 L2]]]]. apply X. apply L1. eapply first_match_ext; [exact E| |exact F]. symmetry. apply S.
Qed.

Lemma demo_strings : forall q e max, param_at (sy_root demo) q e -> e_kind e = KdString max -> valued demo q e demo_start.
Proof. intros q e max Hq E. apply zero_valued; auto. rewrite E. exact I. Qed.
