(** The names and rules of the domains and configurations: what the commands do to them. *)
From Coq Require Import List Arith ZArith Bool Ascii String Lia.
From Verif Require Import Base BaseProofs TextModel ParamTypeModel BlackboardModel TreeModel TreeSpec TreeProofs CriterionModel
  RuleModel RuleSpec RuleProofs SyncModel DomainModel MemSpec DomainSpec SyncProofs DomainProofs DomainInv DomainApply DomainsInv MgrModel MgrSpec MgrProofs.
Import ListNotations.
Local Open Scope nat_scope.

(** A configuration, a domain, without their settings. *)
Definition csk (c : config) : nat * str * option rule := (cf_id c, cf_name c, cf_rule c).
Definition dsk (d : domain) : nat * str * bool * list (nat * str * option rule) := (dm_id d, dm_name d, dm_aware d, map csk (dm_configs d)).
Definition skel (m : mgr) := map dsk (ds_list (mg_doms m)).

Lemma csk_forall2 : forall (R : config -> config -> Prop) l l', Forall2 R l l' ->
  (forall c c', R c c' -> cf_id c' = cf_id c /\ cf_name c' = cf_name c /\ cf_rule c' = cf_rule c) -> map csk l' = map csk l.
Proof.
  intros R l l' H Hr. induction H as [|c c' l l' H1 H2 IH]; auto. simpl. destruct (Hr _ _ H1) as [A [B C]]. unfold csk at 1 3.
  rewrite IH, A, B, C. auto.
Qed.

Lemma skel_one : forall l1 d l2 d', dsk d' = dsk d -> map dsk (l1 ++ d' :: l2) = map dsk (l1 ++ d :: l2).
Proof. intros l1 d l2 d' H. rewrite !map_app. simpl. rewrite H. auto. Qed.

Lemma csk_one : forall l1 c l2 c', csk c' = csk c -> map csk (l1 ++ c' :: l2) = map csk (l1 ++ c :: l2).
Proof. intros l1 d l2 d' H. rewrite !map_app. simpl. rewrite H. auto. Qed.

Lemma skel_on : forall n f s b s', ds_on n f s = Ok (b, s') -> (forall d b d', In d (ds_list s) -> f d = Ok (b, d') -> dsk d' = dsk d) ->
  map dsk (ds_list s') = map dsk (ds_list s).
Proof.
  intros n f s b s' H Hf. destruct (ds_on_cases _ _ _ _ _ H) as [[_ [_ ->]]|[l1 [d [l2 [d' [E1 [E2 [E3 [E4 ->]]]]]]]]]; auto.
  cbn [ds_list]. rewrite E2. apply skel_one. apply (Hf d b d'); auto. rewrite E2. apply in_or_app. simpl. auto.
Qed.

Lemma skel_on_att : forall n f s b s', ds_on_att n f s = Ok (b, s') ->
  (forall d b d' at', In d (ds_list s) -> f d (ds_att s) = Ok (b, (d', at')) -> dsk d' = dsk d) -> map dsk (ds_list s') = map dsk (ds_list s).
Proof.
  intros n f s b s' H Hf. destruct (ds_on_att_cases _ _ _ _ _ H) as [[_ [_ ->]]|[l1 [d [l2 [d' [at' [E1 [E2 [E3 [E4 ->]]]]]]]]]]; auto.
  cbn [ds_list]. rewrite E2. apply skel_one. apply (Hf d b d' at'); auto. rewrite E2. apply in_or_app. simpl. auto.
Qed.

Lemma skel_on_config : forall n f d b d', dm_on_config n f d = Ok (b, d') -> (forall c b c', f c = Ok (b, c') -> csk c' = csk c) -> dsk d' = dsk d.
Proof.
  intros n f d b d' H Hf. destruct (dm_on_config_cases _ _ _ _ _ H) as [[_ [_ ->]]|[l1 [c [l2 [c' [E1 [E2 [E3 [E4 ->]]]]]]]]]; auto.
  unfold dsk. cbn [dm_id dm_name dm_aware dm_configs with_configs]. rewrite E2, (csk_one l1 c l2 c'); eauto.
Qed.

(** Commands that change no name and no rule. *)
Definition skel_command (c : cmd) : bool :=
  match c with
  | CCreateDomain _ | CDeleteDomain _ | CDeleteAllDomains | CRenameDomain _ _ | CSequenceAware _ _ | CCreateConfig _ _ | CDeleteConfig _ _
  | CRenameConfig _ _ _ | CSetRule _ _ _ | CClearRule _ _ => false
  | _ => true
  end.

Lemma on_doms_inv : forall m o b m', on_doms m o = Ok (b, m') -> exists s, o = Ok (b, s) /\ m' = with_doms m s.
Proof. intros m o b m' H. unfold on_doms in H. destruct o as [[b1 s]| | |]; try discriminate. cbn [obind fst snd] in H. inversion H; subst. eauto. Qed.

Lemma tuned_inv : forall m k b m', tuned m k = Ok (b, m') -> (mg_tuning m = false /\ b = false /\ m' = m) \/ (mg_tuning m = true /\ k = Ok (b, m')).
Proof. intros m k b m' H. unfold tuned in H. destruct (mg_tuning m); auto. inversion H; subst. auto. Qed.

Lemma write_main_inv : forall y p a o m b m', write_main y p a o m = Ok (b, m') ->
  mg_doms m' = mg_doms m /\ mg_crits m' = mg_crits m /\ mg_tuning m' = mg_tuning m /\ mg_autosync m' = mg_autosync m.
Proof.
  intros y p a o m b m' H. unfold write_main in H. destruct o as [[ok bb]| | |]; try discriminate. cbn [obind fst snd] in H.
  destruct ok; [destruct (sync_param y p a bb (mg_trace m))|]; inversion H; subst; auto.
Qed.

Lemma set_live_inv : forall y path s m b m', set_live y path s m = Ok (b, m') ->
  mg_doms m' = mg_doms m /\ mg_crits m' = mg_crits m /\ mg_tuning m' = mg_tuning m /\ mg_autosync m' = mg_autosync m.
Proof.
  intros y path s m b m' H. unfold set_live in H. destruct (param_of (sy_root y) path) as [[p rest]|]; [|inversion H; subst; auto].
  apply write_main_inv in H. auto.
Qed.

Lemma do_apply_inv : forall y force need m m', structure_ok y -> mgr_ok y m -> do_apply y force need m = Ok m' ->
  mg_doms m' = Domains (map (applied (mg_crits m) force) (ds_list (mg_doms m))) (ds_att (mg_doms m)) (ds_fresh (mg_doms m))
  /\ mg_crits m' = crits_reset (mg_crits m) /\ mg_tuning m' = mg_tuning m /\ mg_autosync m' = mg_autosync m.
Proof.
  intros y force need m m' Hst [K [V L]] H. unfold do_apply in H.
  destruct (ds_apply_spec y (mg_crits m) force (resync_syncers y need) (mg_doms m) (mg_main m) (mg_trace m) Hst K L (resync_sorted y need))
    as [mid [m2 [col [e1 [e2 [E1 _]]]]]].
  rewrite E1 in H. cbn [obind] in H. inversion H; subst. auto.
Qed.

Lemma applied_skel : forall cs force l, map dsk (map (applied cs force) l) = map dsk l.
Proof.
  intros cs force l. rewrite map_map. apply map_ext. intros d. unfold applied. destruct (dm_applicable cs d); auto. destruct force; auto.
Qed.

Lemma same_skel : forall y m c b m', system_ok y -> mgr_ok y m -> skel_command c = true -> step y m c = Ok (b, m') -> skel m' = skel m.
Proof.
  intros y m c b m' [Hst Os] M Sc H. pose proof M as [K [V L]]. unfold skel.
  assert (forall k b0 m0, tuned m k = Ok (b0, m0) -> (k = Ok (b0, m0) -> map dsk (ds_list (mg_doms m0)) = map dsk (ds_list (mg_doms m))) ->
    map dsk (ds_list (mg_doms m0)) = map dsk (ds_list (mg_doms m))) as T.
  { intros k b0 m0 Hk G. destruct (tuned_inv _ _ _ _ Hk) as [[_ [_ ->]]|[_ E]]; auto. }
  assert (forall o b0 m0, on_doms m o = Ok (b0, m0) -> (forall s, o = Ok (b0, s) -> map dsk (ds_list s) = map dsk (ds_list (mg_doms m))) ->
    map dsk (ds_list (mg_doms m0)) = map dsk (ds_list (mg_doms m))) as D.
  { intros o b0 m0 Ho G. destruct (on_doms_inv _ _ _ _ Ho) as [s [E ->]]. cbn [mg_doms with_doms]. auto. }
  destruct c; cbn [skel_command] in Sc; try discriminate; cbn [step] in H.
  - apply (T _ _ _ H). intros G. apply set_live_inv in G. rewrite (proj1 G). auto.
  - unfold set_recorded in H. destruct (locate (sy_root y) path) as [p|]; [|inversion H; subst; auto].
    destruct (ds_find_blackboard dom conf p (mg_doms m)) as [[[d c] g]|]; [|inversion H; subst; auto].
    destruct (access_set _ _ _ _ _ _) as [[ok bb]| | |]; try discriminate. cbn [obind fst snd] in H.
    destruct (ds_edit dom conf g bb (mg_doms m)) as [[b1 s1]| | |] eqn:Ed; try discriminate. cbn [obind fst snd] in H.
    assert (map dsk (ds_list s1) = map dsk (ds_list (mg_doms m))) as E.
    { apply (skel_on _ _ _ _ _ Ed). intros d0 b0 d' _ Ec. apply (skel_on_config _ _ _ _ _ Ec). intros k b2 c' E. inversion E; subst. auto. }
    destruct ok; [|inversion H; subst; auto]. destruct (is_last d c); [|inversion H; subst; auto].
    apply set_live_inv in H. rewrite (proj1 H). auto.
  - unfold set_tuning in H. destruct (Bool.eqb on (mg_tuning m)); [inversion H; subst; auto|]. destruct (on && negb (mg_allowed m)); [inversion H; subst; auto|].
    destruct on; [inversion H; subst; auto|]. destruct (do_apply y true need m) as [m1| | |] eqn:Ea; try discriminate. cbn [obind] in H. inversion H; subst.
    apply do_apply_inv in Ea; auto. cbn [mg_doms with_tuning]. rewrite (proj1 Ea). apply applied_skel.
  - unfold set_autosync, do_sync in H. destruct (on && negb (mg_autosync m)); [|inversion H; subst; auto].
    destruct (mg_autosync m); [inversion H; subst; auto|]. destruct (sync_set _ _ _ _) as [[ok er] tr]. destruct ok; inversion H; subst; auto.
  - unfold do_sync in H. destruct (mg_autosync m); [inversion H; subst; auto|]. destruct (sync_set _ _ _ _) as [[ok er] tr]. inversion H; subst; auto.
  - inversion H; subst; auto.
  - inversion H; subst; auto.
  - apply (T _ _ _ H). intros G. clear H.
    destruct (ds_restore_spec y dom conf (mg_autosync m) (mg_doms m) (mg_main m) (mg_trace m) Hst K L) as [b2 [s' [bb [er [tr [E1 [_ [_ [_ [R1 [R2 R3]]]]]]]]]]].
    rewrite E1 in G. cbn [obind] in G. inversion G; subst.
    destruct (ds_find dom (mg_doms m)) as [d|] eqn:Fd; [|destruct (R1 eq_refl) as [_ [-> _]]; auto].
    destruct (dm_find conf d) as [k|] eqn:Fk; [|destruct (R2 d eq_refl Fk) as [_ [-> _]]; auto].
    destruct (R3 d k eq_refl Fk) as [l1 [l2 [evs [Q1 [-> _]]]]]. cbn [mg_doms with_trace with_main with_doms ds_list]. rewrite Q1. apply skel_one. auto.
  - apply (T _ _ _ H). intros G. apply (D _ _ _ G). intros s Es. apply (skel_on _ _ _ _ _ Es). intros d b1 d' Hd Ed.
    destruct (dm_on_config_cases _ _ _ _ _ Ed) as [[_ [_ ->]]|[l1 [c0 [l2 [c' [E1 [E2 [E3 [E4 ->]]]]]]]]]; auto.
    pose proof (dk_configs _ _ (ds_domain _ _ K d Hd) c0 (dm_find_In _ _ _ E1)) as Kc.
    destruct (cf_save_spec y (dm_elems d) (mg_main m) c0 Hst Kc L) as [c2 [F1 [_ [F2 [F3 [F4 _]]]]]]. rewrite F1 in E4. inversion E4; subst c2.
    unfold dsk. cbn [dm_id dm_name dm_aware dm_configs with_configs]. rewrite E2, (csk_one l1 c0 l2 c'); auto. unfold csk. rewrite F2, F3, F4. auto.
  - apply (T _ _ _ H). intros G. unfold on_located in G. destruct (locate (sy_root y) path) as [p|] eqn:El; [|inversion G; subst; auto].
    apply (D _ _ _ G). intros s Es. apply (skel_on_att _ _ _ _ _ Es). intros d b1 d' at' Hd Ed.
    destruct (dm_add_ok y p (Some (mg_main m)) d (ds_att (mg_doms m)) Hst Os) as [b2 [d2 [at2 [E1 [_ [E2 E3]]]]]]; auto.
    { destruct (locate_sound _ _ _ El) as [e He]. congruence. }
    { intros k Hk. inversion Hk; subst; auto. } { apply (ds_domain _ _ K); auto. } { apply (ds_link y); auto. } { apply (ds_att_once _ _ K). }
    rewrite E1 in Ed. inversion Ed; subst. destruct b1; [|destruct (E2 eq_refl) as [-> _]; auto].
    destruct (E3 eq_refl) as [_ [F1 [_ [_ [_ [_ [F2 [F3 [F4 F5]]]]]]]]]. unfold dsk. rewrite F1, F3, F4. rewrite (csk_forall2 _ _ _ F2); auto.
    intros c0 c' [A1 [A2 [A3 _]]]; auto.
  - apply (T _ _ _ H). intros G. unfold on_located in G. destruct (locate (sy_root y) path) as [p|] eqn:El; [|inversion G; subst; auto].
    apply (D _ _ _ G). intros s Es. apply (skel_on_att _ _ _ _ _ Es). intros d b1 d' at' Hd Ed.
    destruct (dm_remove_ok y p d (ds_att (mg_doms m))) as [b2 [d2 [at2 [E1 [_ [E2 E3]]]]]]; auto.
    { apply (ds_domain _ _ K); auto. } { apply (ds_link y); auto. } { apply (ds_att_once _ _ K). }
    rewrite E1 in Ed. inversion Ed; subst. destruct b1; [|destruct (E2 eq_refl) as [-> _]; auto].
    destruct (E3 eq_refl) as [_ [F1 [_ [_ [_ [_ [F2 [F3 [F4 F5]]]]]]]]]. unfold dsk. rewrite F1, F3, F4. rewrite (csk_forall2 _ _ _ F2); auto.
    intros c0 c' ->. auto.
  - apply (T _ _ _ H). intros G. unfold on_located in G. destruct (locate (sy_root y) path) as [p|] eqn:El; [|inversion G; subst; auto].
    apply (D _ _ _ G). intros s Es. apply (skel_on_att _ _ _ _ _ Es). intros d b1 d' at' Hd Ed.
    destruct (dm_split_ok y p d (ds_att (mg_doms m)) Hst Os) as [b2 [d2 [at2 [E1 [_ [E2 E3]]]]]]; auto.
    { apply (ds_domain _ _ K); auto. } { apply (ds_link y); auto. } { apply (ds_att_once _ _ K). }
    rewrite E1 in Ed. cbn [obind snd] in Ed. inversion Ed; subst. destruct b2; [|destruct (E2 eq_refl) as [-> _]; auto].
    destruct (E3 eq_refl) as [_ [F1 [_ [_ [_ [e [_ [_ [F2 [F3 [F4 F5]]]]]]]]]]]. unfold dsk. rewrite F1, F3, F4. rewrite (csk_forall2 _ _ _ F2); auto.
    intros c0 c' [A1 [A2 [A3 _]]]; auto.
  - apply (T _ _ _ H). intros G. apply (D _ _ _ G). intros s Es. apply (skel_on _ _ _ _ _ Es). intros d b1 d' Hd Ed.
    apply (skel_on_config _ _ _ _ _ Ed). intros c0 b2 c' E. inversion E as [E0]. unfold cf_set_sequence in E0. destruct (sequence_loop _ _ _ _ _). inversion E0; auto.
  - unfold apply_configurations in H. destruct (mg_tuning m); [inversion H; subst; auto|].
    destruct (do_apply y false need m) as [m1| | |] eqn:Ea; try discriminate. cbn [obind] in H. inversion H; subst.
    apply do_apply_inv in Ea; auto. rewrite (proj1 Ea). apply applied_skel.
  - inversion H; subst; auto.
  - destruct (handle_set_ok y p v m (proj1 Hst) L) as [b1 [m1 [E1 [E2 _]]]]. rewrite E1 in H. inversion H; subst. rewrite E2. auto.
  - destruct (handle_bytes_ok y p bytes m (proj1 Hst) L) as [b1 [m1 [E1 [E2 _]]]]. rewrite E1 in H. inversion H; subst. rewrite E2. auto.
Qed.

(** ** The criteria *)

Lemma crits_set_nth : forall cs j v i, option_map cr_type (nth_error (crits_set cs j v) i) = option_map cr_type (nth_error cs i)
  /\ List.length (crits_set cs j v) = List.length cs.
Proof.
  induction cs as [|k cs IH]; intros j v i; [destruct j; auto|]. destruct j; cbn [crits_set]; simpl; split; auto.
  - destruct i; simpl; auto. unfold cr_set. destruct (cr_state k =? v)%Z; auto.
  - destruct i; simpl; auto. apply (IH j v i).
  - f_equal. apply (IH j v 0).
Qed.

Lemma crits_reset_nth : forall cs i, option_map cr_type (nth_error (crits_reset cs) i) = option_map cr_type (nth_error cs i)
  /\ List.length (crits_reset cs) = List.length cs.
Proof. intros cs i. unfold crits_reset. rewrite map_length. split; auto. rewrite nth_error_map. destruct (nth_error cs i); auto. Qed.

Definition same_crits (cs cs' : list criterion) : Prop :=
  List.length cs' = List.length cs /\ forall i, option_map cr_type (nth_error cs' i) = option_map cr_type (nth_error cs i).

Lemma same_crits_refl : forall cs, same_crits cs cs.
Proof. split; auto. Qed.

Lemma same_crits_ok : forall cs cs', same_crits cs cs' -> crits_ok cs -> crits_ok cs'.
Proof.
  intros cs cs' [_ H] K i k Hk. specialize (H i). rewrite Hk in H. destruct (nth_error cs i) as [k0|] eqn:E; [|discriminate].
  simpl in H. inversion H as [H1]. rewrite H1. apply (K i k0 E).
Qed.

Lemma in_scope_length : forall cs cs' r, List.length cs' = List.length cs -> in_scope cs r -> in_scope cs' r.
Proof.
  intros cs cs' r L H. revert H. induction r as [c w v|all l IH] using rule_ind2; intros H; inversion H; subst.
  - constructor. lia.
  - constructor. intros r Hr. apply IH; auto.
Qed.

Lemma legal_in_scope : forall cs r, legal cs r -> in_scope cs r.
Proof.
  intros cs r. induction r as [c w v|all l IH] using rule_ind2; intros H; inversion H; subst.
  - constructor. apply nth_error_Some. congruence.
  - constructor. intros r Hr. apply IH; auto.
Qed.

Lemma handle_set_keeps : forall y p v m b m', handle_set y p v m = Ok (b, m') ->
  mg_crits m' = mg_crits m /\ mg_tuning m' = mg_tuning m /\ mg_autosync m' = mg_autosync m /\ mg_doms m' = mg_doms m.
Proof.
  intros y p v m b m' H. unfold handle_set in H. destruct (elem_at (sy_root y) p) as [e|] eqn:E; [|inversion H; subst; auto].
  destruct (check_set e p (hval_size v) (ds_att (mg_doms m))); [|inversion H; subst; auto]. destruct (mg_tuning m) eqn:T; [inversion H; subst; auto|].
  unfold handle_commit in H. rewrite E in H. apply write_main_inv in H. rewrite <- T. tauto.
Qed.

Lemma handle_bytes_keeps : forall y p v m b m', handle_bytes y p v m = Ok (b, m') ->
  mg_crits m' = mg_crits m /\ mg_tuning m' = mg_tuning m /\ mg_autosync m' = mg_autosync m /\ mg_doms m' = mg_doms m.
Proof.
  intros y p v m b m' H. unfold handle_bytes in H. destruct (elem_at (sy_root y) p) as [e|] eqn:E; [|inversion H; subst; auto].
  destruct (set_bytes (sy_root y) p v 0 (mg_main m)); try discriminate; [|inversion H; subst; auto].
  destruct (mg_autosync m) eqn:A; [destruct (sync_set _ _ _ _) as [[ok er] tr]|]; inversion H; subst; auto.
Qed.

Lemma step_crits : forall y m c b m', structure_ok y -> mgr_ok y m -> step y m c = Ok (b, m') -> same_crits (mg_crits m) (mg_crits m').
Proof.
  intros y m c b m' Hst M H. pose proof M as [K [V L]].
  assert (forall k b0 m0, tuned m k = Ok (b0, m0) -> (k = Ok (b0, m0) -> mg_crits m0 = mg_crits m) -> same_crits (mg_crits m) (mg_crits m0)) as T.
  { intros k b0 m0 Hk G. destruct (tuned_inv _ _ _ _ Hk) as [[_ [_ ->]]|[_ E]]; [apply same_crits_refl|]. rewrite (G E). apply same_crits_refl. }
  assert (forall o b0 m0, on_doms m o = Ok (b0, m0) -> mg_crits m0 = mg_crits m) as D.
  { intros o b0 m0 Ho. destruct (on_doms_inv _ _ _ _ Ho) as [s [E ->]]. auto. }
  assert (forall a, a = mg_crits m -> same_crits (mg_crits m) a) as S by (intros a ->; apply same_crits_refl).
  destruct c; cbn [step] in H; try (apply (T _ _ _ H); intros G; apply (D _ _ _ G)); try (apply S; apply (D _ _ _ H)).
  - apply (T _ _ _ H). intros G. apply set_live_inv in G. tauto.
  - unfold set_recorded in H. destruct (locate (sy_root y) path) as [p|]; [|inversion H; subst; auto].
    destruct (ds_find_blackboard dom conf p (mg_doms m)) as [[[d c] g]|]; [|inversion H; subst; auto].
    destruct (access_set _ _ _ _ _ _) as [[ok bb]| | |]; try discriminate. cbn [obind fst snd] in H.
    destruct (ds_edit dom conf g bb (mg_doms m)) as [[b1 s1]| | |] eqn:Ed; try discriminate. cbn [obind fst snd] in H.
    destruct ok; [|inversion H; subst; auto]. destruct (is_last d c); [|inversion H; subst; auto].
    apply set_live_inv in H. apply S. tauto.
  - unfold set_tuning in H. destruct (Bool.eqb on (mg_tuning m)); [inversion H; subst; auto|]. destruct (on && negb (mg_allowed m)); [inversion H; subst; auto|].
    destruct on; [inversion H; subst; auto|]. destruct (do_apply y true need m) as [m1| | |] eqn:Ea; try discriminate. cbn [obind] in H. inversion H; subst.
    apply do_apply_inv in Ea; auto. cbn [mg_crits with_tuning]. destruct Ea as [_ [-> _]]. split; [apply (crits_reset_nth _ 0)|apply crits_reset_nth].
  - unfold set_autosync, do_sync in H. destruct (on && negb (mg_autosync m)); [|inversion H; subst; auto].
    destruct (mg_autosync m); [inversion H; subst; auto|]. destruct (sync_set _ _ _ _) as [[ok er] tr]. destruct ok; inversion H; subst; auto.
  - unfold do_sync in H. destruct (mg_autosync m); [inversion H; subst; auto|]. destruct (sync_set _ _ _ _) as [[ok er] tr]. inversion H; subst; auto.
  - inversion H; subst; auto.
  - inversion H; subst; auto.
  - apply (T _ _ _ H). intros G. destruct (ds_restore _ _ _ _ _ _ _) as [[[[[b1 s1] bb] er] tr]| | |]; try discriminate. cbn [obind] in G. inversion G; auto.
  - apply (T _ _ _ H). intros G. unfold on_located in G. destruct (locate (sy_root y) path); [apply (D _ _ _ G)|inversion G; auto].
  - apply (T _ _ _ H). intros G. unfold on_located in G. destruct (locate (sy_root y) path); [apply (D _ _ _ G)|inversion G; auto].
  - apply (T _ _ _ H). intros G. unfold on_located in G. destruct (locate (sy_root y) path); [apply (D _ _ _ G)|inversion G; auto].
  - unfold apply_configurations in H. destruct (mg_tuning m); [inversion H; subst; auto|].
    destruct (do_apply y false need m) as [m1| | |] eqn:Ea; try discriminate. cbn [obind] in H. inversion H; subst.
    apply do_apply_inv in Ea; auto. destruct Ea as [_ [-> _]]. split; [apply (crits_reset_nth _ 0)|apply crits_reset_nth].
  - inversion H; subst. cbn [mg_crits with_crits]. split; [apply (crits_set_nth _ i v 0)|apply crits_set_nth].
  - apply handle_set_keeps in H. apply S. tauto.
  - apply handle_bytes_keeps in H. apply S. tauto.
Qed.

(** ** Rules *)

Lemma skel_rules : forall m, rules_ok m <-> forall x k r, In x (skel m) -> In k (snd x) -> snd k = Some r -> in_scope (mg_crits m) r.
Proof.
  intros m. unfold rules_ok, skel. split; intros H.
  - intros x k r Hx Hk Hr. apply in_map_iff in Hx. destruct Hx as [d [<- Hd]]. simpl in Hk. apply in_map_iff in Hk. destruct Hk as [c [<- Hc]]. eauto.
  - intros d c r Hd Hc Hr. apply (H (dsk d) (csk c) r); auto; [apply in_map; auto|]. simpl. apply in_map. auto.
Qed.

(** How a domain is replaced by the commands on names and rules. *)
Lemma ds_on_rules : forall n f s b s' (P : rule -> Prop), ds_on n f s = Ok (b, s') ->
  (forall d c r, In d (ds_list s) -> In c (dm_configs d) -> cf_rule c = Some r -> P r) ->
  (forall d b d', In d (ds_list s) -> (forall c r, In c (dm_configs d) -> cf_rule c = Some r -> P r) -> f d = Ok (b, d') ->
     forall c r, In c (dm_configs d') -> cf_rule c = Some r -> P r) ->
  forall d c r, In d (ds_list s') -> In c (dm_configs d) -> cf_rule c = Some r -> P r.
Proof.
  intros n f s b s' P H H1 H2. destruct (ds_on_cases _ _ _ _ _ H) as [[_ [_ ->]]|[l1 [d [l2 [d' [E1 [E2 [E3 [E4 ->]]]]]]]]]; auto.
  intros k c r Hk Hc Hr. cbn [ds_list] in Hk. apply in_app_iff in Hk. destruct Hk as [Hk|[<-|Hk]].
  - apply (H1 k c r); auto. rewrite E2, in_app_iff. auto.
  - assert (In d (ds_list s)) as Hd by (rewrite E2, in_app_iff; simpl; auto). apply (H2 d b d' Hd (fun c0 r0 => H1 d c0 r0 Hd) E4 c r Hc Hr).
  - apply (H1 k c r); auto. rewrite E2, in_app_iff. simpl. auto.
Qed.

Lemma on_config_rules : forall n f d b d' (P : rule -> Prop), dm_on_config n f d = Ok (b, d') ->
  (forall c r, In c (dm_configs d) -> cf_rule c = Some r -> P r) ->
  (forall c b c' r, f c = Ok (b, c') -> cf_rule c' = Some r -> P r \/ cf_rule c = Some r) ->
  forall c r, In c (dm_configs d') -> cf_rule c = Some r -> P r.
Proof.
  intros n f d b d' P H H1 H2. destruct (dm_on_config_cases _ _ _ _ _ H) as [[_ [_ ->]]|[l1 [c [l2 [c' [E1 [E2 [E3 [E4 ->]]]]]]]]]; auto.
  cbn [dm_configs with_configs]. intros k r Hk Hr. apply in_app_iff in Hk. destruct Hk as [Hk|[<-|Hk]].
  - apply (H1 k r); auto. rewrite E2, in_app_iff. auto.
  - destruct (H2 c b c' r E4 Hr) as [|Hc]; auto. apply (H1 c r); auto. rewrite E2, in_app_iff. simpl. auto.
  - apply (H1 k r); auto. rewrite E2, in_app_iff. simpl. auto.
Qed.

Lemma step_rules_any : forall y m c b m' (Pr : rule -> Prop), system_ok y -> mgr_ok y m -> step y m c = Ok (b, m') ->
  (forall text r, parse_text (mg_crits m) text = Ok r -> Pr r) ->
  (forall d c r, In d (ds_list (mg_doms m)) -> In c (dm_configs d) -> cf_rule c = Some r -> Pr r) ->
  forall d c r, In d (ds_list (mg_doms m')) -> In c (dm_configs d) -> cf_rule c = Some r -> Pr r.
Proof.
  intros y m c b m' Pr Hy M H Np R1. pose proof Hy as [Hst Os]. pose proof M as [K [V L]].
  destruct (skel_command c) eqn:Sc.
  { intros d k r Hd Hk Hr. pose proof (same_skel y m c b m' Hy M Sc H) as Es.
    assert (In (dsk d) (skel m)) as Hx by (rewrite <- Es; unfold skel; apply in_map; auto).
    unfold skel in Hx. apply in_map_iff in Hx. destruct Hx as [d0 [E0 Hd0]]. assert (In (csk k) (snd (dsk d0))) as Hk0 by (rewrite E0; cbn [snd dsk]; apply in_map; auto).
    cbn [snd dsk] in Hk0. apply in_map_iff in Hk0. destruct Hk0 as [k0 [Ek Hk0]]. apply (R1 d0 k0 r Hd0 Hk0). inversion Ek. congruence. }
  assert (forall k b0 m0, tuned m k = Ok (b0, m0) -> m0 = m' -> (k = Ok (b0, m0) -> forall d c r, In d (ds_list (mg_doms m0)) -> In c (dm_configs d) -> cf_rule c = Some r -> Pr r) ->
     forall d c r, In d (ds_list (mg_doms m0)) -> In c (dm_configs d) -> cf_rule c = Some r -> Pr r) as T.
  { intros k b0 m0 Hk E0 G. destruct (tuned_inv _ _ _ _ Hk) as [[_ [_ ->]]|[_ E]]; [exact R1|exact (G E)]. }
  destruct c; cbn [skel_command] in Sc; try discriminate; cbn [step] in H.
  - apply (T _ _ _ H eq_refl). intros G. destruct (on_doms_inv _ _ _ _ G) as [s [E ->]]. cbn [mg_doms with_doms] in *. inversion E as [E1]. unfold ds_create in E1.
    destruct (ds_find name (mg_doms m)); inversion E1; subst; [exact R1|]. cbn [ds_list]. intros d c r Hd Hc Hr. apply in_app_iff in Hd.
    destruct Hd as [Hd|[<-|[]]]; [apply (R1 d c r); auto|]. destruct Hc.
  - apply (T _ _ _ H eq_refl). intros G. destruct (on_doms_inv _ _ _ _ G) as [s [E ->]]. cbn [mg_doms with_doms] in *. inversion E as [E1]. unfold ds_delete in E1.
    destruct (ds_find name (mg_doms m)) as [d|] eqn:Fd; inversion E1; subst; [|exact R1].
    destruct (ds_find_split _ _ _ Fd) as [l1 [l2 [F1 [F2 F3]]]]. cbn [ds_list]. rewrite F1, drop_domain_split by auto. intros k c r Hk. apply R1.
    rewrite F1, in_app_iff. apply in_app_iff in Hk. simpl. tauto.
  - apply (T _ _ _ H eq_refl). intros G. destruct (on_doms_inv _ _ _ _ G) as [s [E ->]]. inversion E; subst. intros d c r [].
  - destruct (on_doms_inv _ _ _ _ H) as [s [E ->]]. cbn [mg_doms with_doms] in *. inversion E as [E1]. unfold ds_rename in E1.
    destruct (ds_find name (mg_doms m)) as [d|] eqn:Fd; [|inversion E1; subst; exact R1]. destruct (existsb _ _); [inversion E1; subst; exact R1|].
    destruct (ds_find_split _ _ _ Fd) as [l1 [l2 [F1 [F2 F3]]]]. rewrite F1, upd_domain_split in E1 by auto. cbn [obind fst snd] in E1. inversion E1; subst.
    cbn [ds_list]. intros k c r Hk Hc Hr. apply in_app_iff in Hk. destruct Hk as [Hk|[<-|Hk]].
    + apply (R1 k c r); auto. rewrite F1, in_app_iff. auto.
    + apply (R1 d c r); auto. rewrite F1, in_app_iff. simpl. auto.
    + apply (R1 k c r); auto. rewrite F1, in_app_iff. simpl. auto.
  - apply (T _ _ _ H eq_refl). intros G. destruct (on_doms_inv _ _ _ _ G) as [s [E ->]]. cbn [mg_doms with_doms] in *.
    apply (ds_on_rules _ _ _ _ _ _ E R1). intros d b1 d' Hd P E1. inversion E1; subst. exact P.
  - apply (T _ _ _ H eq_refl). intros G. destruct (on_doms_inv _ _ _ _ G) as [s [E ->]]. cbn [mg_doms with_doms] in *.
    apply (ds_on_rules _ _ _ _ _ _ E R1). intros d b1 d' Hd P E1.
    destruct (dm_create_config_ok y conf (mg_main m) d Hst L (ds_domain _ _ K d Hd)) as [b2 [d2 [F1 [_ [F2 F3]]]]]. rewrite F1 in E1. inversion E1; subst.
    destruct b1; [|rewrite (F2 eq_refl); exact P]. destruct (F3 eq_refl) as [_ [_ [_ [_ [_ [c [G1 [_ [G2 _]]]]]]]]]. rewrite G1. intros k r Hk Hr.
    apply in_app_iff in Hk. destruct Hk as [Hk|[<-|[]]]; [apply (P k r); auto|congruence].
  - apply (T _ _ _ H eq_refl). intros G. destruct (on_doms_inv _ _ _ _ G) as [s [E ->]]. cbn [mg_doms with_doms] in *.
    apply (ds_on_rules _ _ _ _ _ _ E R1). intros d b1 d' Hd P E1. inversion E1 as [E2].
    destruct (dm_delete_config_ok y conf d b1 d' (ds_domain _ _ K d Hd) E2) as [_ [_ Q]]. intros k r Hk. apply P. auto.
  - destruct (on_doms_inv _ _ _ _ H) as [s [E ->]]. cbn [mg_doms with_doms] in *.
    apply (ds_on_rules _ _ _ _ _ _ E R1). intros d b1 d' Hd P E1. inversion E1 as [E2]. unfold dm_rename_config in E2.
    destruct (dm_find conf d) as [c|] eqn:Fc; [|inversion E2; subst; exact P]. destruct (existsb _ _); [inversion E2; subst; exact P|].
    destruct (dm_find_split _ _ _ Fc) as [l1 [l2 [F1 [F2 F3]]]]. rewrite F1, upd_config_split in E2 by auto. cbn [obind fst snd] in E2. inversion E2; subst.
    cbn [dm_configs with_configs]. intros k r Hk Hr. apply in_app_iff in Hk. destruct Hk as [Hk|[<-|Hk]].
    + apply (P k r); auto. rewrite F1, in_app_iff. auto.
    + apply (P c r); auto. rewrite F1, in_app_iff. simpl. auto.
    + apply (P k r); auto. rewrite F1, in_app_iff. simpl. auto.
  - destruct (on_doms_inv _ _ _ _ H) as [s [E ->]]. cbn [mg_doms mg_crits with_doms] in *.
    apply (ds_on_rules _ _ _ _ _ _ E R1). intros d b1 d' Hd P E1. apply (on_config_rules _ _ _ _ _ _ E1 P).
    intros c b2 c' r E2 Hr. destruct (set_rule_cases (mg_crits m) text (cf_rule c)) as [Z|[Z|[r0 [Z1 Z2]]]]; rewrite ?Z, ?Z2 in E2; try discriminate; cbn [obind fst snd] in E2; inversion E2; subst; cbn [cf_rule with_rule] in Hr.
    + auto.
    + left. inversion Hr; subst. apply (Np text). exact Z1.
  - destruct (on_doms_inv _ _ _ _ H) as [s [E ->]]. cbn [mg_doms mg_crits with_doms] in *.
    apply (ds_on_rules _ _ _ _ _ _ E R1). intros d b1 d' Hd P E1. apply (on_config_rules _ _ _ _ _ _ E1 P).
    intros c b2 c' r E2 Hr. inversion E2; subst. discriminate.
Qed.


Lemma step_rules : forall y m c b m', system_ok y -> mgr_ok y m -> crits_ok (mg_crits m) -> step y m c = Ok (b, m') -> rules_ok m -> rules_ok m'.
Proof.
  intros y m c b m' Hy M Ck H R. pose proof (step_crits y m c b m' (proj1 Hy) M H) as [Sl _].
  refine (step_rules_any y m c b m' (in_scope (mg_crits m')) Hy M H _ _).
  - intros text r E. apply (in_scope_length (mg_crits m)); auto. apply legal_in_scope. apply (parse_text_legal (mg_crits m) text r); auto.
  - intros d k r Hd Hk Hr. apply (in_scope_length (mg_crits m)); auto. apply (R d k r); auto.
Qed.

(** ** Names *)

Definition sk_names (l : list (nat * str * bool * list (nat * str * option rule))) : Prop :=
  NoDup (map (fun x => snd (fst (fst x))) l) /\ ~ In [] (map (fun x => snd (fst (fst x))) l)
  /\ forall x, In x l -> NoDup (map (fun k => snd (fst k)) (snd x)) /\ ~ In [] (map (fun k => snd (fst k)) (snd x)).

Lemma skel_names : forall m, names_distinct m <-> sk_names (skel m).
Proof.
  intros m. unfold names_distinct, sk_names, skel. rewrite !map_map. cbn [fst snd dsk].
  split; intros [H1 [H2 H3]]; (split; [exact H1|split; [exact H2|]]).
  - intros x Hx. apply in_map_iff in Hx. destruct Hx as [d [<- Hd]]. cbn [snd dsk]. rewrite map_map. exact (H3 d Hd).
  - intros d Hd. specialize (H3 (dsk d) (in_map dsk _ _ Hd)). cbn [snd dsk] in H3. rewrite map_map in H3. exact H3.
Qed.

Definition dom_names (d : domain) : Prop := NoDup (map cf_name (dm_configs d)) /\ ~ In [] (map cf_name (dm_configs d)).

Lemma replace_names : forall m l1 d l2 d' at_ fr, names_distinct m -> ds_list (mg_doms m) = l1 ++ d :: l2 -> dm_name d' = dm_name d -> dom_names d' ->
  names_distinct (with_doms m (Domains (l1 ++ d' :: l2) at_ fr)).
Proof.
  intros m l1 d l2 d' at_ fr [N1 [N2 N3]] E En Dn. rewrite E in *. unfold names_distinct. cbn [mg_doms with_doms ds_list].
  replace (map dm_name (l1 ++ d' :: l2)) with (map dm_name (l1 ++ d :: l2)) by (rewrite !map_app; cbn [map]; congruence).
  split; [exact N1|split; [exact N2|]]. intros k Hk. apply in_app_iff in Hk. destruct Hk as [Hk|[<-|Hk]]; [|exact Dn|].
  - apply N3, in_or_app. auto.
  - apply N3, in_or_app. simpl. auto.
Qed.

Lemma on_names : forall m n f b s', names_distinct m -> ds_on n f (mg_doms m) = Ok (b, s') ->
  (forall d b d', In d (ds_list (mg_doms m)) -> f d = Ok (b, d') -> dm_name d' = dm_name d /\ dom_names d') -> names_distinct (with_doms m s').
Proof.
  intros m n f b s' N H Hf. destruct (ds_on_cases _ _ _ _ _ H) as [[_ [_ ->]]|[l1 [d [l2 [d' [E1 [E2 [E3 [E4 ->]]]]]]]]]; auto.
  destruct (Hf d b d') as [F1 F2]; auto. { rewrite E2, in_app_iff. simpl. auto. }
  apply (replace_names m l1 d l2 d'); auto.
Qed.

Lemma step_names : forall y m c b m', system_ok y -> mgr_ok y m -> gives_name c -> step y m c = Ok (b, m') -> names_distinct m -> names_distinct m'.
Proof.
  intros y m c b m' Hy M Gn H N. pose proof Hy as [Hst Os]. pose proof M as [K [V L]]. destruct (skel_command c) eqn:Sc.
  { apply skel_names. rewrite (same_skel y m c b m' Hy M Sc H). apply skel_names. auto. }
  assert (forall k b0 m0, tuned m k = Ok (b0, m0) -> (k = Ok (b0, m0) -> names_distinct m0) -> names_distinct m0) as T.
  { intros k b0 m0 Hk G. destruct (tuned_inv _ _ _ _ Hk) as [[_ [_ ->]]|[_ E]]; auto. }
  pose proof N as [N1 [N2 N3]].
  assert (forall d, In d (ds_list (mg_doms m)) -> dm_path_name d = dm_name d) as Pn.
  { intros d Hd. unfold dm_path_name. destruct (dm_name d) eqn:E; auto. destruct N2. rewrite <- E. apply in_map. auto. }
  assert (forall d c, In d (ds_list (mg_doms m)) -> In c (dm_configs d) -> cf_path_name c = cf_name c) as Pc.
  { intros d k Hd Hk. unfold cf_path_name. destruct (cf_name k) eqn:E; auto. destruct (proj2 (N3 d Hd)). rewrite <- E. apply in_map. auto. }
  destruct c; cbn [skel_command] in Sc; try discriminate; cbn [step] in H; cbn [gives_name] in Gn.
  - apply (T _ _ _ H). intros G. destruct (on_doms_inv _ _ _ _ G) as [s [E ->]]. inversion E as [E1]. unfold ds_create in E1.
    destruct (ds_find name (mg_doms m)) eqn:Fd; inversion E1; subst; auto. unfold names_distinct. cbn [mg_doms with_doms ds_list]. rewrite map_app.
    assert (~ In name (map dm_name (ds_list (mg_doms m)))) as Nn.
    { intros C. apply in_map_iff in C. destruct C as [d [C1 C2]]. apply (proj1 (ds_find_None name (mg_doms m)) Fd d C2). rewrite Pn; auto. }
    split; [|split].
    + apply NoDup_app; auto; [repeat constructor; intros []|]. intros x Hx [<-|[]]. auto.
    + rewrite in_app_iff. intros [C|[C|[]]]; auto.
    + intros d Hd. apply in_app_iff in Hd. destruct Hd as [Hd|[<-|[]]]; auto. split; [constructor|intros []].
  - apply (T _ _ _ H). intros G. destruct (on_doms_inv _ _ _ _ G) as [s [E ->]]. inversion E as [E1]. unfold ds_delete in E1.
    destruct (ds_find name (mg_doms m)) as [d|] eqn:Fd; inversion E1; subst; auto.
    destruct (ds_find_split _ _ _ Fd) as [l1 [l2 [F1 [F2 F3]]]]. unfold names_distinct. cbn [mg_doms with_doms ds_list]. rewrite F1, drop_domain_split by auto. 
    rewrite F1 in *. rewrite map_app in *. cbn [map] in *. split; [|split].
    + apply (NoDup_remove_1 _ _ _ N1).
    + intros C. apply N2. apply in_app_iff in C. rewrite in_app_iff. simpl. tauto.
    + intros k Hk. apply N3. apply in_app_iff in Hk. rewrite in_app_iff. simpl. tauto.
  - apply (T _ _ _ H). intros G. destruct (on_doms_inv _ _ _ _ G) as [s [E ->]]. inversion E; subst. split; [constructor|]. split; [intros []|intros d []].
  - destruct (on_doms_inv _ _ _ _ H) as [s [E ->]]. inversion E as [E1]. unfold ds_rename in E1.
    destruct (ds_find name (mg_doms m)) as [d|] eqn:Fd; [|inversion E1; subst; auto]. destruct (existsb _ _) eqn:Ex; [inversion E1; subst; auto|].
    destruct (ds_find_split _ _ _ Fd) as [l1 [l2 [F1 [F2 F3]]]]. rewrite F1, upd_domain_split in E1 by auto. cbn [obind fst snd] in E1. inversion E1; subst.
    pose proof (ds_ids _ _ K) as Ni. rewrite F1 in Ni, N1, N2, N3, Ex. rewrite map_app in Ni, N1, N2. cbn [map] in Ni, N1, N2.
    unfold names_distinct. cbn [mg_doms with_doms ds_list]. rewrite map_app. cbn [map dm_name with_name].
    assert (~ In new (map dm_name (l1 ++ l2))) as Nn.
    { intros C. apply in_map_iff in C. destruct C as [k [C1 C2]]. enough (existsb (fun k => negb (dm_id k =? dm_id d) && str_eqb (dm_name k) new) (l1 ++ d :: l2) = true) by congruence.
      apply existsb_exists. exists k. split; [apply in_app_iff in C2; rewrite in_app_iff; simpl; tauto|]. rewrite C1, str_eqb_refl, andb_true_r.
      apply negb_true_iff, Nat.eqb_neq. intros C3. apply (NoDup_remove_2 _ _ _ Ni). rewrite <- C3, <- map_app. apply in_map. auto. }
    rewrite map_app in Nn. split; [|split].
    + apply (Permutation.Permutation_NoDup (Permutation.Permutation_middle _ _ _)). constructor; auto. apply (NoDup_remove_1 _ _ _ N1).
    + intros C. apply N2. apply in_app_iff in C. rewrite in_app_iff. simpl in *. destruct C as [C|[C|C]]; auto. congruence.
    + intros k Hk. apply in_app_iff in Hk. destruct Hk as [Hk|[<-|Hk]].
      * apply N3, in_or_app. auto.
      * apply (N3 d). apply in_or_app. simpl. auto.
      * apply N3, in_or_app. simpl. auto.
  - apply (T _ _ _ H). intros G. destruct (on_doms_inv _ _ _ _ G) as [s [E ->]]. apply (on_names m _ _ _ _ N E). intros d b1 d' Hd E1. inversion E1; subst.
    split; auto. apply (N3 d Hd).
  - apply (T _ _ _ H). intros G. destruct (on_doms_inv _ _ _ _ G) as [s [E ->]]. apply (on_names m _ _ _ _ N E). intros d b1 d' Hd E1.
    destruct (dm_create_config_ok y conf (mg_main m) d Hst L (ds_domain _ _ K d Hd)) as [b2 [d2 [F1 [F4 [F2 F3]]]]]. rewrite F1 in E1. inversion E1; subst.
    destruct b1; [|rewrite (F2 eq_refl); split; auto; apply (N3 d Hd)]. destruct (F3 eq_refl) as [_ [_ [F5 [_ [_ [c [G1 [G2 _]]]]]]]]. split; auto.
    destruct (N3 d Hd) as [P1 P2]. unfold dom_names. rewrite G1, map_app. cbn [map]. rewrite G2. split.
    + apply NoDup_app; auto; [repeat constructor; intros []|]. intros x Hx [<-|[]]. apply in_map_iff in Hx. destruct Hx as [k [Hk1 Hk2]].
      apply (proj1 F4 eq_refl k Hk2). rewrite (Pc d k); auto.
    + rewrite in_app_iff. intros [C|[C|[]]]; auto.
  - apply (T _ _ _ H). intros G. destruct (on_doms_inv _ _ _ _ G) as [s [E ->]]. apply (on_names m _ _ _ _ N E). intros d b1 d' Hd E1. inversion E1 as [E2].
    destruct (N3 d Hd) as [P1 P2]. unfold dm_delete_config in E2. destruct (dm_find conf d) as [c|] eqn:Fc; [|inversion E2; subst; split; auto; split; auto].
    destruct (dm_find_split _ _ _ Fc) as [l1 [l2 [F1 [F2 F3]]]].
    assert (dm_name d' = dm_name d /\ dm_configs d' = l1 ++ l2) as [Q1 Q2].
    { destruct (is_last d c); inversion E2; subst; cbn [dm_name dm_configs with_configs with_last]; split; auto; rewrite F1; apply drop_config_split; auto. }
    split; auto. unfold dom_names. rewrite Q2. rewrite F1 in P1, P2. rewrite map_app in *. cbn [map] in *. split; [apply (NoDup_remove_1 _ _ _ P1)|].
    intros C. apply P2. apply in_app_iff in C. rewrite in_app_iff. simpl. tauto.
  - destruct (on_doms_inv _ _ _ _ H) as [s [E ->]]. apply (on_names m _ _ _ _ N E). intros d b1 d' Hd E1. inversion E1 as [E2]. unfold dm_rename_config in E2.
    destruct (N3 d Hd) as [P1 P2]. destruct (dm_find conf d) as [c|] eqn:Fc; [|inversion E2; subst; split; auto; split; auto].
    destruct (existsb _ _) eqn:Ex; [inversion E2; subst; split; auto; split; auto|].
    destruct (dm_find_split _ _ _ Fc) as [l1 [l2 [F1 [F2 F3]]]]. rewrite F1, upd_config_split in E2 by auto. cbn [obind fst snd] in E2. inversion E2; subst.
    split; auto. unfold dom_names. cbn [dm_configs with_configs]. pose proof (dk_ids _ _ (ds_domain _ _ K d Hd)) as Ni.
    rewrite F1 in Ni, P1, P2, Ex. rewrite map_app in *. cbn [map cf_name] in *.
    assert (~ In new (map cf_name (l1 ++ l2))) as Nn.
    { intros C. apply in_map_iff in C. destruct C as [k [C1 C2]]. enough (existsb (fun k => negb (cf_id k =? cf_id c) && str_eqb (cf_name k) new) (l1 ++ c :: l2) = true) by congruence.
      apply existsb_exists. exists k. split; [apply in_app_iff in C2; rewrite in_app_iff; simpl; tauto|]. rewrite C1, str_eqb_refl, andb_true_r.
      apply negb_true_iff, Nat.eqb_neq. intros C3. apply (NoDup_remove_2 _ _ _ Ni). rewrite <- C3, <- map_app. apply in_map. auto. }
    rewrite map_app in Nn. split.
    + apply (Permutation.Permutation_NoDup (Permutation.Permutation_middle _ _ _)). constructor; auto. apply (NoDup_remove_1 _ _ _ P1).
    + intros C. apply P2. apply in_app_iff in C. rewrite in_app_iff. simpl in *. destruct C as [C|[C|C]]; auto. congruence.
  - destruct (on_doms_inv _ _ _ _ H) as [s [E ->]]. apply (on_names m _ _ _ _ N E). intros d b1 d' Hd E1. destruct (N3 d Hd) as [P1 P2].
    destruct (dm_on_config_cases _ _ _ _ _ E1) as [[_ [_ ->]]|[l1 [c [l2 [c' [E2 [E3 [E4 [E5 ->]]]]]]]]]; [split; auto; split; auto|]. split; auto.
    unfold dom_names. cbn [dm_configs with_configs]. rewrite E3 in P1, P2. rewrite map_app in *. cbn [map] in *.
    assert (cf_name c' = cf_name c) as En. { destruct (set_application_rule _ _ _); try discriminate. inversion E5; auto. }
    rewrite En. auto.
  - destruct (on_doms_inv _ _ _ _ H) as [s [E ->]]. apply (on_names m _ _ _ _ N E). intros d b1 d' Hd E1. destruct (N3 d Hd) as [P1 P2].
    destruct (dm_on_config_cases _ _ _ _ _ E1) as [[_ [_ ->]]|[l1 [c [l2 [c' [E2 [E3 [E4 [E5 ->]]]]]]]]]; [split; auto; split; auto|]. split; auto.
    unfold dom_names. cbn [dm_configs with_configs]. rewrite E3 in P1, P2. rewrite map_app in *. cbn [map] in *. inversion E5; subst. auto.
Qed.

(** ** Histories *)

(** An invariant of the commands is an invariant of the histories. *)
Lemma run_inv : forall y (P : mgr -> Prop) (Q : cmd -> Prop), system_ok y ->
  (forall m c b m', mgr_ok y m -> P m -> Q c -> step y m c = Ok (b, m') -> P m') ->
  forall cs m bs m', mgr_ok y m -> P m -> Forall Q cs -> run y m cs = Ok (bs, m') -> mgr_ok y m' /\ P m'.
Proof.
  intros y P Q Hy Hp cs. induction cs as [|c cs IH]; intros m bs m' M Pm Hq H; cbn [run] in H; [inversion H; subst; auto|].
  inversion Hq; subst. destruct (step y m c) as [[b m1]| | |] eqn:Es; try discriminate. cbn [obind fst snd] in H.
  destruct (run y m1 cs) as [[bs1 m2]| | |] eqn:Er; try discriminate. cbn [obind fst snd] in H. inversion H; subst.
  assert (mgr_ok y m1) as M1.
  { destruct (step_ok y m c Hy M) as [[b2 [m3 [X1 X2]]]|[X _]]; rewrite Es in *; [inversion X1; subst; auto|discriminate]. }
  apply (IH m1 bs1 m'); auto. apply (Hp m c b m1); auto.
Qed.

Lemma load_ok : forall y allowed cs s bb, system_ok y -> loadable y cs s bb -> exists m s1, load y allowed cs s bb = Ok m /\ ds_validate y bb s = Ok s1
  /\ do_apply y true [] (Mgr s1 bb false allowed true false false cs []) = Ok m
  /\ mgr_ok y (Mgr s1 bb false allowed true false false cs []) /\ rules_ok (Mgr s1 bb false allowed true false false cs [])
  /\ mgr_ok y m /\ rules_ok m /\ crits_ok (mg_crits m).
Proof.
  intros y al cs s bb Hy [Ck [K [R L]]]. destruct (ds_validate_ok y bb s (proj1 Hy) K L) as [s1 [E1 [K1 [V1 [_ F]]]]].
  unfold load. rewrite E1. cbn [obind]. set (m0 := Mgr s1 bb false al true false false cs []).
  assert (mgr_ok y m0) as M0 by (split; [auto|split; auto]).
  assert (rules_ok m0) as R0.
  { intros d' c' r Hd' Hc' Er. cbn [mg_doms mg_crits m0] in *. destruct (Forall2_in_r _ _ _ _ _ d' F Hd') as [d [Hd [_ [_ [_ [_ [_ G]]]]]]].
    destruct (Forall2_in_r _ _ _ _ _ c' G Hc') as [c [Hc [_ [_ [Ec _]]]]]. apply (R d c r); auto. congruence. }
  destruct (do_apply_ok y true [] m0 (proj1 Hy) M0) as [m [E2 M]]. exists m, s1. split; auto. split; auto. split; auto. split; auto. split; auto. split; auto.
  destruct (do_apply_inv y true [] m0 m (proj1 Hy) M0 E2) as [A1 [A2 _]]. split.
  - intros d c r Hd Hc Er. rewrite A1 in Hd. cbn [ds_list] in Hd. apply in_map_iff in Hd. destruct Hd as [k [<- Hk]].
    rewrite A2. apply (in_scope_length (mg_crits m0)); [apply (crits_reset_nth _ 0)|]. apply (R0 k c r); auto.
    unfold applied in Hc. destruct (dm_applicable (mg_crits m0) k); auto.
  - rewrite A2. apply (same_crits_ok (mg_crits m0)); auto. split; [apply (crits_reset_nth _ 0)|apply crits_reset_nth].
Qed.

Lemma started_ok : forall y m, system_ok y -> started y m -> mgr_ok y m /\ rules_ok m /\ crits_ok (mg_crits m).
Proof.
  intros y m Hy [al [cs [s [bb [Hl H]]]]]. destruct (load_ok y al cs s bb Hy Hl) as [m1 [s1 [E1 [_ [_ [_ [_ R]]]]]]]. rewrite H in E1. inversion E1; subst. auto.
Qed.

Lemma reachable_ok : forall y m, system_ok y -> reachable y m -> mgr_ok y m /\ rules_ok m /\ crits_ok (mg_crits m).
Proof.
  intros y m Hy [m0 [cmds [bs [St H]]]]. destruct (started_ok y m0 Hy St) as [M0 [R0 C0]].
  destruct (run_inv y (fun m => rules_ok m /\ crits_ok (mg_crits m)) (fun _ => True) Hy) with (cs := cmds) (m := m0) (bs := bs) (m' := m) as [R1 R2]; auto.
  - intros m1 c b m2 M [P1 P2] _ Es. split; [apply (step_rules y m1 c b m2); auto|]. apply (same_crits_ok (mg_crits m1)); auto.
    apply (step_crits y m1 c b m2); auto. apply Hy.
  - clear. induction cmds; constructor; auto.
Qed.

Lemma reachable_step : forall y m c b m', reachable y m -> step y m c = Ok (b, m') -> reachable y m'.
Proof.
  intros y m c b m' [m0 [cmds [bs [Ck H]]]] Hs. exists m0, (cmds ++ [c]), (bs ++ [b]). split; auto.
  rewrite run_app, H. cbn [obind fst snd run]. rewrite Hs. cbn [obind fst snd]. auto.
Qed.
