(** Restoring and applying configurations: memory and trace of the synchronisations. *)
From Coq Require Import List Arith Bool Lia Permutation Sorted.
From Verif Require Import Base BaseProofs TextProofs CriterionModel RuleModel BlackboardModel TreeModel TreeSpec TreeProofs MemSpec SyncModel
  DomainModel DomainSpec MemProofs AreaProofs SyncProofs DomainProofs DomainInv.
Import ListNotations.
Local Open Scope nat_scope.

(** The synchronisations of the areas of a configuration: each with its syncers, in order. *)
Definition area_syncs (y : system) (l : list area) : list (area * nat) :=
  flat_map (fun a => map (pair a) (syncer_set y (ar_pos a))) l.

(** The event of the synchronisation of an area: the memory holds the settings of the area. *)
Definition sync_event (y : system) (x : area * nat) (v : event) : Prop :=
  ev_syncer v = snd x /\ forall i, owns (sy_root y) (ar_pos (fst x)) i -> mbit (ev_mem v) i = abit (sy_root y) (fst x) i.

Lemma Forall2_map_l : forall A B C (f : A -> B) (R : B -> C -> Prop) l l', Forall2 (fun a c => R (f a) c) l l' -> Forall2 R (map f l) l'.
Proof. intros A B C f R l l' H. induction H; simpl; constructor; auto. Qed.

Lemma restore_events : forall y sync l main tr ok main' errs tr', structure_ok y -> List.length main = footprint (sy_root y) ->
  Forall (area_ok (sy_root y)) l -> restore_areas y sync l main tr = Ok (ok, main', errs, tr') ->
  exists evs, tr' = tr ++ evs /\ ok = forallb ev_ok evs /\ errs = map ev_syncer (filter (fun v => negb (ev_ok v)) evs)
    /\ Forall2 (sync_event y) (if sync then area_syncs y l else []) evs
    /\ Forall (fun v => List.length (ev_mem v) = footprint (sy_root y)) evs.
Proof.
  intros y sync l. induction l as [|a l IH]; intros main tr ok main' errs tr' Hs Lm Ha H; cbn [restore_areas] in H.
  - inversion H; subst. exists []. rewrite app_nil_r. repeat split; auto. destruct sync; constructor.
  - inversion Ha; subst. destruct (copy_to_main y a main (proj1 Hs) H2 Lm) as [m [E1 [E2 [E3 E4]]]].
    assert (List.length m = footprint (sy_root y)) as Lm2 by lia.
    unfold area_restore in H. rewrite E1 in H. cbn [obind] in H.
    destruct sync.
    + destruct (sync_set y (syncer_set y (ar_pos a)) m tr) as [[ok1 errs1] tr1] eqn:Es.
      destruct (sync_set_spec _ _ _ _ _ _ _ Es) as [evs1 [S1 [S2 [S3 [S4 [S5 S6]]]]]]. cbn [obind] in H.
      destruct (restore_areas y true l m tr1) as [[[[ok2 m2] errs2] tr2]| | |] eqn:Er; cbn [obind] in H; try discriminate.
      inversion H; subst. destruct (IH _ _ _ _ _ _ Hs Lm2 H3 Er) as [evs2 [I1 [I2 [I3 [I4 I5]]]]].
      exists (evs1 ++ evs2). rewrite I1, app_assoc. split; auto. rewrite forallb_app, I2. split; auto. rewrite filter_app, map_app, I3. split; auto.
      split.
      * unfold area_syncs. cbn [flat_map]. apply Forall2_app; [|exact I4]. clear - S2 S3 E3. rewrite <- S2. clear S2.
        induction S3; simpl; constructor; auto. split; auto. cbn [fst]. rewrite H. auto.
      * apply Forall_app. split; auto. rewrite Forall_forall in *. intros v Hv. rewrite (S3 v Hv). lia.
    + cbn [obind] in H.
      destruct (restore_areas y false l m tr) as [[[[ok2 m2] errs2] tr2]| | |] eqn:Er; cbn [obind] in H; try discriminate.
      inversion H; subst. destruct (IH _ _ _ _ _ _ Hs Lm2 H3 Er) as [evs2 [I1 [I2 [I3 [I4 I5]]]]].
      exists evs2. auto.
Qed.

(** ** The settings of a configuration written to the main memory *)

Definition bit_of (root : elem) (c : config) (i : nat) (b : bool) : Prop :=
  exists a, In a (cf_areas c) /\ owns root (ar_pos a) i /\ abit root a i = b.

Definition untouched (root : elem) (c : config) (i : nat) : Prop := forall a, In a (cf_areas c) -> ~ owns root (ar_pos a) i.

(** [main'] is [main] with the settings of the configuration. *)
Definition written (root : elem) (c : config) (main main' : blackboard) : Prop :=
  List.length main' = List.length main
  /\ (forall i b, bit_of root c i b -> mbit main' i = b)
  /\ (forall i, untouched root c i -> mbit main' i = mbit main i).

Lemma config_separate : forall root l c, separate l -> config_ok root l c -> separate (map ar_pos (cf_areas c)).
Proof.
  intros root l c [N U] [P _]. split; [apply (Permutation_NoDup (Permutation_sym P)); auto|].
  intros p q Hp Hq. apply U; apply (Permutation_in _ P); auto.
Qed.

Lemma cf_restore_spec : forall y sync l c main tr, structure_ok y -> separate l -> config_ok (sy_root y) l c ->
  List.length main = footprint (sy_root y) ->
  exists main' evs, cf_restore y sync c main tr
     = Ok (forallb ev_ok evs, main', map ev_syncer (filter (fun v => negb (ev_ok v)) evs), tr ++ evs)
    /\ written (sy_root y) c main main'
    /\ Forall2 (sync_event y) (if sync then area_syncs y (cf_areas c) else []) evs
    /\ Forall (fun v => List.length (ev_mem v) = footprint (sy_root y)) evs.
Proof.
  intros y sync l c main tr Hs Sl K Lm. pose proof (config_separate _ _ _ Sl K) as Sc. pose proof K as [_ Ac].
  destruct (restore_areas_spec y sync (cf_areas c) main tr Hs Lm Ac Sc) as [ok [main' [errs [tr' [E [L [W1 [W2 _]]]]]]]].
  destruct (restore_events _ _ _ _ _ _ _ _ _ Hs Lm Ac E) as [evs [V1 [V2 [V3 [V4 V5]]]]].
  exists main', evs. unfold cf_restore. rewrite E. split; [congruence|]. split; [|auto]. split; auto. split; auto.
  intros i b [a [H1 [H2 H3]]]. rewrite <- H3. apply W1; auto.
Qed.

(** ** Applying *)

(** The configuration a domain takes when configurations are applied, if it changes. *)
Definition chosen (cs : list criterion) (force : bool) (d : domain) : option config :=
  match dm_applicable cs d with
  | Some c => if negb force && is_last d c then None else Some c
  | None => None
  end.

(** The domain after the application. *)
Definition applied (cs : list criterion) (force : bool) (d : domain) : domain :=
  match dm_applicable cs d with
  | Some c => with_last d (Some (cf_id c))
  | None => if force then with_last d None else d
  end.

Lemma dm_apply_skip : forall y cs force d shared main tr,
  xorb (match shared with None => true | Some _ => false end) (dm_aware d) = true ->
  dm_apply y cs force d shared main tr = Ok (d, shared, main, tr).
Proof. intros. unfold dm_apply. rewrite H. auto. Qed.

Lemma with_last_same : forall d, with_last d (dm_last d) = d.
Proof. destruct d; auto. Qed.

Lemma dm_apply_spec : forall y cs force d shared main tr, structure_ok y -> domain_ok y d -> List.length main = footprint (sy_root y) ->
  xorb (match shared with None => true | Some _ => false end) (dm_aware d) = false ->
  exists main' evs, dm_apply y cs force d shared main tr
     = Ok (applied cs force d,
           match shared, chosen cs force d with Some ss, Some _ => Some (set_union ss (dm_syncers d)) | _, _ => shared end,
           main', tr ++ evs)
    /\ match chosen cs force d with
       | Some c => written (sy_root y) c main main' /\ Forall2 (sync_event y) (if dm_aware d then area_syncs y (cf_areas c) else []) evs
                   /\ In c (dm_configs d)
       | None => main' = main /\ evs = []
       end
    /\ Forall (fun v => List.length (ev_mem v) = footprint (sy_root y)) evs.
Proof.
  intros y cs force d shared main tr Hs K Lm X. unfold dm_apply. rewrite X.
  assert (dm_applicable cs (if force then with_last d None else d) = dm_applicable cs d) as Ea by (destruct force; auto).
  rewrite Ea. unfold applied, chosen. destruct (dm_applicable cs d) as [c|] eqn:E.
  2:{ exists main, []. rewrite app_nil_r. split; [destruct shared; auto|auto]. }
  assert (In c (dm_configs d)) as Ic by (unfold dm_applicable in E; apply find_some in E; tauto).
  assert (is_last (if force then with_last d None else d) c = negb force && is_last d c) as El by (destruct force; auto).
  rewrite El. destruct (negb force && is_last d c) eqn:Q.
  - apply andb_true_iff in Q. destruct Q as [Q1 Q2]. apply negb_true_iff in Q1. subst force. exists main, []. rewrite app_nil_r.
    unfold is_last in Q2. destruct (dm_last d) as [i|] eqn:Ed; [|discriminate]. apply Nat.eqb_eq in Q2. subst i.
    rewrite <- Ed, with_last_same. split; [destruct shared; auto|auto].
  - assert (dm_aware (if force then with_last d None else d) = dm_aware d) as Eaw by (destruct force; auto).
    assert (dm_syncers (if force then with_last d None else d) = dm_syncers d) as Esy by (destruct force; auto).
    assert ((match shared with None => true | Some _ => false end) && dm_aware d = dm_aware d) as Eb.
    { destruct shared; destruct (dm_aware d); simpl in *; auto; discriminate. }
    rewrite Eaw, Eb.
    destruct (cf_restore_spec y (dm_aware d) (dm_elems d) c main tr Hs (dk_separate _ _ K) (dk_configs _ _ K c Ic) Lm) as [main' [evs [R1 [R2 [R3 R4]]]]].
    rewrite R1. cbn [obind]. exists main', evs. split; [|auto]. rewrite Esy. f_equal.
    destruct shared as [ss|]; destruct (dm_aware d) eqn:Aw; simpl in X; try discriminate; destruct force; auto.
Qed.

(** *** Several domains *)

(** A list of configurations written one after the other. *)
Inductive written_all (root : elem) : list config -> blackboard -> blackboard -> Prop :=
  | wa_nil : forall m, written_all root [] m m
  | wa_cons : forall c cs m1 m2 m3, written root c m1 m2 -> written_all root cs m2 m3 -> written_all root (c :: cs) m1 m3.

Lemma written_all_app : forall root l1 l2 a b c, written_all root l1 a b -> written_all root l2 b c -> written_all root (l1 ++ l2) a c.
Proof. intros root l1. induction l1; intros; inversion H; subst; cbn [app]; auto. econstructor; eauto. Qed.

Lemma written_all_length : forall root l a b, written_all root l a b -> List.length b = List.length a.
Proof. intros root l a b H. induction H as [|c l m1 m2 m3 W H IH]; auto. destruct W. congruence. Qed.

Lemma written_all_untouched : forall root l a b i, written_all root l a b -> (forall c, In c l -> untouched root c i) -> mbit b i = mbit a i.
Proof.
  intros root l a b i H. induction H as [|c l m1 m2 m3 W H IH]; intros Hu; auto.
  rewrite IH by (intros; apply Hu; simpl; auto). apply W. apply Hu. simpl. auto.
Qed.

(** The last one writing a bit decides. *)
Lemma written_all_last : forall root l1 c l2 a b i v, written_all root (l1 ++ c :: l2) a b -> bit_of root c i v ->
  (forall k, In k l2 -> untouched root k i) -> mbit b i = v.
Proof.
  intros root l1. induction l1 as [|k l1 IH]; intros c l2 a b i v H Hb Hu; cbn [app] in H; inversion H as [|c' l' m1 m2 m3 W H']; subst.
  - rewrite (written_all_untouched _ _ _ _ i H'); auto. destruct W as [_ [W _]]. apply W. auto.
  - eapply IH; eauto.
Qed.

Definition opt_list {A} (o : option A) : list A := match o with Some a => [a] | None => [] end.

(** The configurations taken by the sequence unaware, resp. aware, domains. *)
Definition taken (cs : list criterion) (force : bool) (l : list domain) : list config := flat_map (fun d => opt_list (chosen cs force d)) l.

Definition unaware (d : domain) : bool := negb (dm_aware d).

Lemma first_pass : forall y cs force l ss main tr, structure_ok y -> (forall d, In d l -> domain_ok y d) -> List.length main = footprint (sy_root y) ->
  exists ss' main', apply_pass y cs force l (Some ss) main tr
     = Ok (map (fun d => if dm_aware d then d else applied cs force d) l, Some ss', main', tr)
    /\ written_all (sy_root y) (taken cs force (filter unaware l)) main main'
    /\ (forall s, In s ss' <-> In s ss \/ exists d, In d l /\ dm_aware d = false /\ chosen cs force d <> None /\ In s (dm_syncers d))
    /\ (StronglySorted lt ss -> StronglySorted lt ss').
Proof.
  intros y cs force l. induction l as [|d l IH]; intros ss main tr Hs K Lm; cbn [apply_pass].
  - exists ss, main. split; auto. split; [constructor|]. split; auto. intros s. split; auto. intros [H|[d [[] _]]]. auto.
  - destruct (dm_aware d) eqn:Aw.
    + rewrite dm_apply_skip by (rewrite Aw; auto). cbn [obind].
      destruct (IH ss main tr Hs ltac:(intros; apply K; simpl; auto) Lm) as [ss' [main' [E [W [S1 S2]]]]]. rewrite E. cbn [obind].
      exists ss', main'. cbn [map]. rewrite Aw. split; auto. cbn [filter]. unfold unaware at 1. rewrite Aw. cbn [negb]. split; auto. split; auto.
      intros s. rewrite S1. split; (intros [H|[k [H1 H2]]]; auto; right; exists k).
      * simpl. auto.
      * destruct H1 as [<-|H1]; auto. destruct H2 as [H2 _]. congruence.
    + destruct (dm_apply_spec y cs force d (Some ss) main tr Hs ltac:(apply K; simpl; auto) Lm ltac:(rewrite Aw; auto)) as [m1 [evs [E [H1 H2]]]].
      rewrite E. cbn [obind]. rewrite Aw in H1. cbn [map filter]. unfold unaware at 1. rewrite Aw. cbn [negb]. cbn [taken flat_map].
      destruct (chosen cs force d) as [c|] eqn:Ec.
      * destruct H1 as [W1 [V1 Ic]]. inversion V1; subst. rewrite app_nil_r.
        destruct (IH (set_union ss (dm_syncers d)) m1 tr Hs ltac:(intros; apply K; simpl; auto) ltac:(destruct W1; congruence)) as [ss' [main' [E2 [W [S1 S2]]]]].
        rewrite E2. cbn [obind]. exists ss', main'. split; auto. split; [|split].
        -- cbn [opt_list app]. econstructor; [exact W1|exact W].
        -- intros s. rewrite S1, set_union_In. split.
           ++ intros [[H|H]|[k [X1 X2]]]; auto; right; [exists d|exists k]; simpl; auto. split; auto. split; auto. split; auto. congruence.
           ++ intros [H|[k [[<-|X1] X2]]]; auto; [tauto|]. right. exists k. auto.
        -- intros S. apply S2. apply set_union_sorted. auto.
      * destruct H1 as [-> ->]. rewrite app_nil_r.
        destruct (IH ss main tr Hs ltac:(intros; apply K; simpl; auto) Lm) as [ss' [main' [E2 [W [S1 S2]]]]].
        rewrite E2. cbn [obind]. exists ss', main'. split; auto. split; auto. split; auto.
        intros s. rewrite S1. split; (intros [H|[k [X1 X2]]]; auto; right; exists k).
        -- simpl. auto.
        -- destruct X1 as [<-|X1]; auto. destruct X2 as [_ [X2 _]]. congruence.
Qed.

(** The synchronisations of the sequence aware domains. *)
Definition aware_syncs (y : system) (cs : list criterion) (force : bool) (l : list domain) : list (area * nat) :=
  area_syncs y (flat_map cf_areas (taken cs force (filter dm_aware l))).

Lemma area_syncs_app : forall y l1 l2, area_syncs y (l1 ++ l2) = area_syncs y l1 ++ area_syncs y l2.
Proof. intros. unfold area_syncs. apply flat_map_app. Qed.

Lemma second_pass : forall y cs force l main tr, structure_ok y -> (forall d, In d l -> domain_ok y d) -> List.length main = footprint (sy_root y) ->
  exists main' evs, apply_pass y cs force l None main tr
     = Ok (map (fun d => if dm_aware d then applied cs force d else d) l, None, main', tr ++ evs)
    /\ written_all (sy_root y) (taken cs force (filter dm_aware l)) main main'
    /\ Forall2 (sync_event y) (aware_syncs y cs force l) evs.
Proof.
  intros y cs force l. induction l as [|d l IH]; intros main tr Hs K Lm; cbn [apply_pass].
  - exists main, []. rewrite app_nil_r. split; auto. split; constructor.
  - destruct (dm_aware d) eqn:Aw.
    + destruct (dm_apply_spec y cs force d None main tr Hs ltac:(apply K; simpl; auto) Lm ltac:(rewrite Aw; auto)) as [m1 [evs [E [H1 H2]]]].
      rewrite E. cbn [obind]. rewrite Aw in H1. cbn [map filter]. rewrite Aw. unfold aware_syncs. cbn [filter]. rewrite Aw. cbn [taken flat_map].
      destruct (chosen cs force d) as [c|] eqn:Ec.
      * destruct H1 as [W1 [V1 Ic]].
        destruct (IH m1 (tr ++ evs) Hs ltac:(intros; apply K; simpl; auto) ltac:(destruct W1; congruence)) as [main' [evs2 [E2 [W V2]]]].
        rewrite E2. cbn [obind]. exists main', (evs ++ evs2). rewrite app_assoc. split; auto. cbn [opt_list app]. split.
        -- econstructor; [exact W1|exact W].
        -- cbn [flat_map]. rewrite area_syncs_app. apply Forall2_app; auto.
      * destruct H1 as [-> ->]. rewrite app_nil_r.
        destruct (IH main tr Hs ltac:(intros; apply K; simpl; auto) Lm) as [main' [evs2 [E2 [W V2]]]].
        rewrite E2. cbn [obind]. exists main', evs2. split; auto.
    + rewrite dm_apply_skip by (rewrite Aw; auto). cbn [obind].
      destruct (IH main tr Hs ltac:(intros; apply K; simpl; auto) Lm) as [main' [evs2 [E [W V]]]]. rewrite E. cbn [obind].
      exists main', evs2. cbn [map]. rewrite Aw. split; auto. unfold aware_syncs. cbn [filter]. rewrite Aw. auto.
Qed.

Lemma applied_aware : forall cs force d, dm_aware (applied cs force d) = dm_aware d.
Proof. intros. unfold applied. destruct (dm_applicable cs d); auto. destruct force; auto. Qed.

Lemma applied_ok : forall y cs force d, domain_ok y d -> domain_ok y (applied cs force d).
Proof.
  intros y cs force d K. unfold applied. destruct (dm_applicable cs d) as [c|] eqn:E; [|destruct force; auto]; destruct K; constructor; cbn [with_last dm_last dm_configs]; auto.
  - intros i Hi. inversion Hi; subst. exists c. split; auto. unfold dm_applicable in E. apply find_some in E. tauto.
  - discriminate.
Qed.

(** The two passes. *)
Lemma ds_apply_spec : forall y cs force ss s main tr, structure_ok y -> domains_ok y s -> List.length main = footprint (sy_root y) ->
  StronglySorted lt ss ->
  exists mid main' collected evs1 evs2, ds_apply y cs force ss s main tr
     = Ok (Domains (map (applied cs force) (ds_list s)) (ds_att s) (ds_fresh s), main', tr ++ evs1 ++ evs2)
    /\ written_all (sy_root y) (taken cs force (filter unaware (ds_list s))) main mid
    /\ written_all (sy_root y) (taken cs force (filter dm_aware (ds_list s))) mid main'
    /\ map ev_syncer evs1 = collected /\ Forall (fun v => ev_mem v = mid) evs1
    /\ (forall x, In x collected <-> In x ss \/ exists d, In d (ds_list s) /\ dm_aware d = false /\ chosen cs force d <> None /\ In x (dm_syncers d))
    /\ StronglySorted lt collected
    /\ Forall2 (sync_event y) (aware_syncs y cs force (ds_list s)) evs2.
Proof.
  intros y cs force ss s main tr Hs K Lm So. unfold ds_apply.
  destruct (first_pass y cs force (ds_list s) ss main tr Hs (ds_domain _ _ K) Lm) as [c [mid [E1 [W1 [S1 S2]]]]]. rewrite E1. cbn [obind].
  destruct (sync_set y c mid tr) as [[ok errs] tr2] eqn:Es. destruct (sync_set_spec _ _ _ _ _ _ _ Es) as [evs1 [V1 [V2 [V3 _]]]].
  set (l1 := map (fun d => if dm_aware d then d else applied cs force d) (ds_list s)).
  destruct (second_pass y cs force l1 mid tr2 Hs) as [main' [evs2 [E2 [W2 V4]]]].
  { intros d Hd. unfold l1 in Hd. apply in_map_iff in Hd. destruct Hd as [k [<- Hk]]. destruct (dm_aware k); [|apply applied_ok]; apply (ds_domain _ _ K); auto. }
  { rewrite (written_all_length _ _ _ _ W1). auto. }
  assert (filter dm_aware l1 = filter dm_aware (ds_list s)) as Ef.
  { unfold l1. clear. induction (ds_list s) as [|d l IH]; simpl; auto. destruct (dm_aware d) eqn:A.
    - rewrite A, IH. auto.
    - rewrite applied_aware, A. auto. }
  rewrite E2. cbn [obind]. exists mid, main', c, evs1, evs2. split.
  - rewrite V1, app_assoc. do 2 f_equal. f_equal. f_equal. unfold l1. rewrite map_map. apply map_ext. intros d. destruct (dm_aware d) eqn:A.
    + rewrite A. auto.
    + rewrite applied_aware, A. auto.
  - unfold aware_syncs in *. rewrite Ef in *. split; auto. split; auto. split; auto.
Qed.
