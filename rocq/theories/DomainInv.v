(** The consistency of the domains is kept by every command. *)
From Coq Require Import List Arith Bool Lia Permutation Sorted.
From Verif Require Import Base BaseProofs TextProofs CriterionModel RuleModel BlackboardModel TreeModel TreeSpec TreeProofs MemSpec SyncModel
  DomainModel DomainSpec AreaProofs SyncProofs DomainProofs.
Import ListNotations.
Local Open Scope nat_scope.

(** ** Attachments *)

Lemma belongs_to_spec : forall at_ p id, belongs_to at_ p id = true <-> exists q, above q p /\ In (q, id) at_.
Proof.
  intros at_ p id. unfold belongs_to.
  assert (forall q, existsb (Nat.eqb id) (attached_to at_ q) = true <-> In (q, id) at_) as A.
  { intros q. unfold attached_to. rewrite existsb_exists. split.
    - intros [x [H1 H2]]. apply Nat.eqb_eq in H2. subst x. apply in_map_iff in H1. destruct H1 as [[a b] [H1 H2]]. apply filter_In in H2.
      destruct H2 as [H2 H3]. apply pos_eqb_eq in H3. simpl in *. subst. auto.
    - intros H. exists id. split; [|apply Nat.eqb_refl]. apply in_map_iff. exists (q, id). split; auto. apply filter_In. split; auto.
      apply pos_eqb_refl. }
  enough (forall rp, belongs_up at_ rp id = true <-> exists q, above q (rev rp) /\ In (q, id) at_) as G.
  { rewrite G, rev_involutive. tauto. }
  clear p. induction rp as [|i r IH]; cbn [belongs_up]; rewrite orb_true_iff, A.
  - split.
    + intros [H|H]; [|discriminate]. exists []. split; auto. apply above_refl.
    + intros [q [[x H1] H2]]. destruct q; [auto|discriminate].
  - rewrite IH. split.
    + intros [H|[q [[x H1] H2]]].
      * exists (rev (i :: r)). split; auto. apply above_refl.
      * exists q. split; auto. exists (x ++ [i]). cbn [rev]. rewrite H1, app_assoc. auto.
    + intros [q [[x H1] H2]]. destruct x as [|j x] using rev_ind.
      * left. rewrite app_nil_r in H1. rewrite H1. auto.
      * right. clear IHx. exists q. split; auto. exists x. simpl in H1. rewrite app_assoc in H1. apply app_inj_tail in H1. tauto.
Qed.

Lemma detach_In : forall p id at_ q i, In (q, i) (detach p id at_) <-> In (q, i) at_ /\ (q <> p \/ i <> id).
Proof.
  intros. unfold detach. rewrite filter_In. cbn [fst snd]. rewrite negb_true_iff, andb_false_iff, pos_eqb_neq, Nat.eqb_neq. tauto.
Qed.

(** ** Sorted unions *)

Lemma fold_union_In : forall y l acc s,
  In s (fold_left (fun acc p => set_union acc (syncer_set y p)) l acc) <-> In s acc \/ exists p, In p l /\ In s (syncer_set y p).
Proof.
  intros y l. induction l as [|p l IH]; intros acc s; cbn [fold_left].
  - split; auto. intros [H|[p [[] _]]]. auto.
  - rewrite IH, set_union_In. split.
    + intros [[H|H]|[q [H1 H2]]]; auto; right; [exists p|exists q]; simpl; auto.
    + intros [H|[q [[->|H1] H2]]]; auto. right. exists q. auto.
Qed.

Lemma fold_union_sorted : forall y l acc, StronglySorted lt acc ->
  StronglySorted lt (fold_left (fun acc p => set_union acc (syncer_set y p)) l acc).
Proof. intros y l. induction l; intros acc H; cbn [fold_left]; auto. apply IHl. apply set_union_sorted. auto. Qed.

(** ** One domain *)

(** What a command on a domain leaves: a consistent domain, the elements knowing it, and valid settings if they were. *)
Definition att_link (d : domain) (at_ : attachments) : Prop := forall p, In (p, dm_id d) at_ <-> In p (dm_elems d).

Record op_ok (y : system) (d : domain) (at_ : attachments) (d' : domain) (at' : attachments) : Prop := {
  oo_domain : domain_ok y d';
  oo_id : dm_id d' = dm_id d;
  oo_link : att_link d' at';
  oo_other : forall p id, id <> dm_id d -> (In (p, id) at' <-> In (p, id) at_);
  oo_once : NoDup at';
  oo_valid : (forall c, In c (dm_configs d) -> config_valid c) -> forall c, In c (dm_configs d') -> config_valid c
}.

Lemma op_ok_refl : forall y d at_, domain_ok y d -> att_link d at_ -> NoDup at_ -> op_ok y d at_ d at_.
Proof. intros. constructor; auto. tauto. Qed.

(** The part of the invariant that does not depend on the elements. *)
Lemma same_ids : forall (R : config -> config -> Prop) l l', (forall c c', R c c' -> cf_id c' = cf_id c) -> Forall2 R l l' ->
  map cf_id l' = map cf_id l.
Proof. intros R l l' H F. apply Forall2_map_eq. eapply Forall2_impl2; [|exact F]. auto. Qed.

Lemma domain_ok_ids : forall y d d', domain_ok y d -> map cf_id (dm_configs d') = map cf_id (dm_configs d) ->
  dm_last d' = dm_last d -> dm_fresh d' = dm_fresh d ->
  NoDup (map cf_id (dm_configs d')) /\ (forall c, In c (dm_configs d') -> cf_id c < dm_fresh d')
  /\ (forall i, dm_last d' = Some i -> exists c, In c (dm_configs d') /\ cf_id c = i).
Proof.
  intros y d d' K E1 E2 E3. rewrite E1, E2, E3. split; [apply (dk_ids _ _ K)|]. split.
  - intros c H. apply (in_map cf_id) in H. rewrite E1 in H. apply in_map_iff in H. destruct H as [k [H1 H2]]. rewrite <- H1. apply (dk_fresh _ _ K). auto.
  - intros i H. destruct (dk_last _ _ K i H) as [c [H1 H2]]. apply (in_map cf_id) in H1. rewrite <- E1 in H1. apply in_map_iff in H1.
    destruct H1 as [k [H3 H4]]. exists k. split; auto. congruence.
Qed.

Lemma separate_snoc : forall l p, separate l -> (forall q, In q l -> unrelated q p) -> separate (l ++ [p]).
Proof.
  intros l p [N U] H. split.
  - apply NoDup_app; auto; [repeat constructor; auto|]. intros x Hx [->|[]]. destruct (H _ Hx) as [C _]. apply C. apply above_refl.
  - intros a b Ha Hb E. apply in_app_or in Ha. apply in_app_or in Hb. destruct Ha as [Ha|[<-|[]]], Hb as [Hb|[<-|[]]]; auto; [|congruence].
    apply unrelated_sym. auto.
Qed.

Lemma separate_filter : forall f l, separate l -> separate (filter f l).
Proof. intros f l [N U]. split; [apply NoDup_filter; auto|]. intros a b Ha Hb. apply filter_In in Ha, Hb. apply U; tauto. Qed.

Lemma dm_add_ok : forall y p main d at_, structure_ok y -> one_syncer y -> elem_at (sy_root y) p <> None ->
  (forall m, main = Some m -> List.length m = footprint (sy_root y)) ->
  domain_ok y d -> att_link d at_ -> NoDup at_ ->
  exists b d' at', dm_add y p main d at_ = Ok (b, (d', at'))
    /\ (b = true <-> ~ covers d p)
    /\ (b = false -> d' = d /\ at' = at_)
    /\ (b = true -> domain_ok y d' /\ dm_id d' = dm_id d /\ att_link d' at'
        /\ (forall q id, id <> dm_id d -> (In (q, id) at' <-> In (q, id) at_)) /\ NoDup at'
        /\ dm_elems d' = filter (not_below p) (dm_elems d) ++ [p]
        /\ Forall2 (added y p main) (dm_configs d) (dm_configs d')
        /\ dm_name d' = dm_name d /\ dm_aware d' = dm_aware d /\ dm_last d' = dm_last d).
Proof.
  intros y p main d at_ Hs O He Hm K L N. unfold dm_add.
  destruct (dm_contains d p) eqn:C1.
  { exists false, d, at_. split; auto. unfold dm_contains in C1. apply existsb_exists in C1. destruct C1 as [q [Iq Eq]]. apply pos_eqb_eq in Eq. subst q.
    split; [|split; auto; discriminate]. split; [discriminate|]. intros C. destruct C. exists p. split; auto. apply above_refl. }
  destruct (belongs_to at_ p (dm_id d)) eqn:C2.
  { exists false, d, at_. split; auto. apply belongs_to_spec in C2. destruct C2 as [q [A Iq]]. apply L in Iq.
    split; [|split; auto; discriminate]. split; [discriminate|]. intros C. destruct C. exists q. auto. }
  assert (~ covers d p) as NC.
  { intros [q [Iq A]]. apply not_true_iff_false in C2. apply C2. apply belongs_to_spec. exists q. split; auto. apply L. auto. }
  assert (~ In p (dm_elems d)) as Np by (intros C; apply NC; exists p; split; auto; apply above_refl).
  destruct (do_add_spec y p main d at_ Hs He (dk_configs _ _ K)) as [cfs' [E F]]; auto.
  { apply separate_filter. apply (dk_separate _ _ K). }
  { apply (dk_separate _ _ K). }
  rewrite E. unfold omap. cbn [obind]. do 3 eexists. split; [reflexivity|]. split; [tauto|]. split; [discriminate|]. intros _.
  set (merged := filter (fun q => descendant_of q p) (dm_elems d)).
  assert (forall q, In q merged <-> In q (dm_elems d) /\ descendant_of q p = true) as Mg by (intros; unfold merged; rewrite filter_In; tauto).
  assert (forall c, cf_id c = cf_id c) as Tid by auto.
  assert (map cf_id cfs' = map cf_id (dm_configs d)) as Eids.
  { apply (same_ids (added y p main)); auto. intros c c' H. apply H. }
  match goal with |- domain_ok y ?D /\ _ => set (d' := D) end.
  destruct (domain_ok_ids y d d' K Eids eq_refl eq_refl) as [I1 [I2 I3]].
  assert (domain_ok y d') as K'.
  { constructor; auto.
    - cbn [d' dm_elems]. intros q Hq. apply in_app_or in Hq. destruct Hq as [Hq|[<-|[]]].
      + apply filter_In in Hq. apply (dk_exist _ _ K). tauto.
      + destruct (elem_at (sy_root y) p); [eauto|congruence].
    - cbn [d' dm_elems]. apply separate_snoc; [apply separate_filter; apply (dk_separate _ _ K)|].
      intros q Hq. apply filter_In in Hq. destruct Hq as [Iq Nq]. unfold not_below in Nq. apply negb_true_iff in Nq. split; intros A.
      + apply NC. exists q. auto.
      + apply not_true_iff_false in Nq. apply Nq. apply descendant_spec. split; auto. congruence.
    - cbn [d' dm_elems dm_configs]. intros c' Hc'. destruct (Forall2_in_r _ _ _ _ _ c' F Hc') as [c [Ic [_ [_ [_ [o [A1 [A2 [A3 _]]]]]]]]].
      destruct (dk_configs _ _ K c Ic) as [Pc Ac]. split; rewrite A1.
      + rewrite map_app. simpl. rewrite A2. apply Permutation_app_tail.
        rewrite (map_filter _ _ ar_pos (not_below p)). apply Permutation_filter. auto.
      + apply Forall_app. split; [|repeat constructor; auto]. rewrite Forall_forall in *. intros a Ha. apply filter_In in Ha. apply Ac. tauto.
    - cbn [d' dm_elems dm_syncers]. intros s. rewrite set_union_In. rewrite (dk_syncers _ _ K). split.
      + intros [[q [Iq Is]]|Is].
        * destruct (descendant_of q p) eqn:Dq.
          -- apply descendant_spec in Dq. destruct Dq as [A _]. exists p. split; [apply in_or_app; simpl; auto|].
             assert (elem_at (sy_root y) q <> None) as Eq by (destruct (dk_exist _ _ K q Iq) as [e Eq]; congruence).
             apply syncer_set_In; auto. apply (linked_above y p q); auto. apply syncer_set_In; auto.
          -- exists q. split; auto. apply in_or_app. left. apply filter_In. split; auto. unfold not_below. rewrite Dq. auto.
        * exists p. split; auto. apply in_or_app. simpl. auto.
      + intros [q [Iq Is]]. apply in_app_or in Iq. destruct Iq as [Iq|[<-|[]]]; auto. left. exists q. split; auto. apply filter_In in Iq. tauto.
    - cbn [d' dm_syncers]. apply set_union_sorted. apply (dk_sorted _ _ K). }
  split; auto. split; auto. split; [|split; [|split; [|split; [|split; [|auto]]]]]; auto.
  - intros q. cbn [d' dm_id dm_elems]. rewrite filter_In. cbn [fst snd]. rewrite Nat.eqb_refl, andb_true_r, negb_true_iff.
    rewrite !in_app_iff. rewrite <- not_true_iff_false, existsb_exists. rewrite (L q). rewrite filter_In. unfold not_below. rewrite negb_true_iff.
    assert ((exists x, In x merged /\ pos_eqb q x = true) <-> In q (dm_elems d) /\ descendant_of q p = true) as M2.
    { rewrite <- Mg. split; [intros [x [X1 X2]]; apply pos_eqb_eq in X2; subst; auto|intros H; exists q; split; auto; apply pos_eqb_refl]. }
    fold merged. rewrite M2. simpl. split.
    + intros [[H|[H|[]]] H2]; [left|right; left; congruence]. split; auto. apply not_true_iff_false. tauto.
    + intros [[H1 H2]|[<-|[]]].
      * split; auto. rewrite H2. intros [_ C]. discriminate.
      * split; auto. tauto.
  - intros q id Nid. rewrite filter_In, in_app_iff. cbn [fst snd]. apply Nat.eqb_neq in Nid. rewrite Nid, andb_false_r. simpl.
    apply Nat.eqb_neq in Nid. split; [intros [[H|[H|[]]] _]; auto; congruence|auto].
  - apply NoDup_filter. apply NoDup_app; auto; [repeat constructor; auto|]. intros x Hx [<-|[]]. apply Np. apply L. auto.
Qed.

Lemma added_valid : forall y p m c c', added y p (Some m) c c' -> config_valid c -> config_valid c'.
Proof.
  intros y p m c c' [_ [_ [_ [o [A1 [A2 [A3 [A4 _]]]]]]]] H. unfold config_valid in *. rewrite A1. apply Forall_app. split; [|repeat constructor; auto].
  rewrite Forall_forall in *. intros a Ha. apply filter_In in Ha. apply H. tauto.
Qed.

(** The settings of configuration [c'] once the element at [p] is no more in the domain. *)
Definition removed (p : pos) (c c' : config) : Prop :=
  c' = with_areas c (filter (fun a => negb (pos_eqb (ar_pos a) p)) (cf_areas c)).

Lemma config_nodup : forall root l c, NoDup l -> config_ok root l c -> NoDup (map ar_pos (cf_areas c)).
Proof. intros root l c N [P _]. apply (Permutation_NoDup (Permutation_sym P)). auto. Qed.

Lemma cf_remove_spec : forall root p l c, NoDup l -> In p l -> config_ok root l c -> exists c', cf_remove p c = Ok c' /\ removed p c c'.
Proof.
  intros root p l c N I K. unfold cf_remove. rewrite remove_area_filter.
  - unfold omap. cbn [obind]. eexists. split; [reflexivity|]. reflexivity.
  - apply (config_nodup root l); auto.
  - destruct K as [P _]. apply (Permutation_in _ (Permutation_sym P)). auto.
Qed.

Lemma dm_remove_ok : forall y p d at_, domain_ok y d -> att_link d at_ -> NoDup at_ ->
  exists b d' at', dm_remove y p d at_ = Ok (b, (d', at'))
    /\ (b = true <-> In p (dm_elems d))
    /\ (b = false -> d' = d /\ at' = at_)
    /\ (b = true -> domain_ok y d' /\ dm_id d' = dm_id d /\ att_link d' at'
        /\ (forall q id, id <> dm_id d -> (In (q, id) at' <-> In (q, id) at_)) /\ NoDup at'
        /\ dm_elems d' = filter (fun q => negb (pos_eqb q p)) (dm_elems d)
        /\ Forall2 (removed p) (dm_configs d) (dm_configs d')
        /\ dm_name d' = dm_name d /\ dm_aware d' = dm_aware d /\ dm_last d' = dm_last d).
Proof.
  intros y p d at_ K L N. unfold dm_remove. destruct (dm_contains d p) eqn:C1.
  2:{ exists false, d, at_. split; auto. split; [|split; auto; discriminate]. split; [discriminate|].
      intros C. apply not_true_iff_false in C1. destruct C1. apply existsb_exists. exists p. split; auto. apply pos_eqb_refl. }
  assert (In p (dm_elems d)) as Ip.
  { apply existsb_exists in C1. destruct C1 as [q [Iq Eq]]. apply pos_eqb_eq in Eq. subst. auto. }
  unfold dm_do_remove. cbn [dm_configs with_elems].
  destruct (omap_list_ok _ _ (cf_remove p) (removed p) (dm_configs d)) as [cfs [E F]].
  { intros c Ic. apply (cf_remove_spec (sy_root y) p (dm_elems d)); auto; [apply (dk_separate _ _ K)|apply (dk_configs _ _ K); auto]. }
  rewrite E. unfold omap. cbn [obind]. do 3 eexists. split; [reflexivity|]. split; [tauto|]. split; [discriminate|]. intros _.
  assert (map cf_id cfs = map cf_id (dm_configs d)) as Eids.
  { apply (same_ids (removed p)); auto. intros c c' ->. auto. }
  match goal with |- domain_ok y ?D /\ _ => set (d' := D) end.
  destruct (domain_ok_ids y d d' K Eids eq_refl eq_refl) as [I1 [I2 I3]].
  assert (dm_elems d' = filter (fun q => negb (pos_eqb q p)) (dm_elems d)) as Ed by auto.
  assert (domain_ok y d') as K'.
  { constructor; auto.
    - rewrite Ed. intros q Hq. apply filter_In in Hq. apply (dk_exist _ _ K). tauto.
    - rewrite Ed. apply separate_filter. apply (dk_separate _ _ K).
    - rewrite Ed. intros c' Hc'. destruct (Forall2_in_r _ _ _ _ _ c' F Hc') as [c [Ic ->]].
      destruct (dk_configs _ _ K c Ic) as [Pc Ac]. split; cbn [cf_areas with_areas].
      + rewrite (map_filter _ _ ar_pos (fun q => negb (pos_eqb q p))). apply Permutation_filter. auto.
      + rewrite Forall_forall in *. intros a Ha. apply filter_In in Ha. apply Ac. tauto.
    - intros s. cbn [d' dm_elems dm_syncers compute_sync_set with_syncers with_configs with_elems]. rewrite fold_union_In. split.
      + intros [[]|H]; auto.
      + auto.
    - cbn [d' dm_syncers compute_sync_set with_syncers]. apply fold_union_sorted. constructor. }
  split; auto. split; auto. split; [|split; [|split; [|split; [|split; [|auto]]]]]; auto.
  - intros q. change (dm_id d') with (dm_id d). rewrite Ed, filter_In, negb_true_iff, pos_eqb_neq, detach_In, (L q).
    split; [intros [H1 [H2|H2]]; [auto|congruence]|tauto].
  - intros q id Nid. rewrite detach_In. tauto.
  - apply NoDup_filter. auto.
Qed.

Lemma removed_valid : forall p c c', removed p c c' -> config_valid c -> config_valid c'.
Proof.
  intros p c c' -> H. unfold config_valid in *. cbn [cf_areas with_areas]. rewrite Forall_forall in *. intros a Ha. apply filter_In in Ha. apply H. tauto.
Qed.

Lemma splitted_valid : forall y p ps c c', splitted y p ps c c' -> config_valid c -> config_valid c'.
Proof.
  intros y p ps c c' [_ [_ [_ [o [news [A1 [A2 [A3 [A4 [A5 [A6 A7]]]]]]]]]]] H. unfold config_valid in *. rewrite A3. apply Forall_app. split; auto.
  rewrite Forall_forall in *. intros a Ha. apply filter_In in Ha. apply H. tauto.
Qed.

Lemma dm_split_ok : forall y p d at_, structure_ok y -> one_syncer y -> domain_ok y d -> att_link d at_ -> NoDup at_ ->
  exists b d' at', dm_split y p d at_ = Ok (b, (d', at'))
    /\ (b = true <-> In p (dm_elems d) /\ exists e, elem_at (sy_root y) p = Some e /\ e_children e <> [])
    /\ (b = false -> d' = d /\ at' = at_)
    /\ (b = true -> domain_ok y d' /\ dm_id d' = dm_id d /\ att_link d' at'
        /\ (forall q id, id <> dm_id d -> (In (q, id) at' <-> In (q, id) at_)) /\ NoDup at'
        /\ exists e, elem_at (sy_root y) p = Some e
        /\ dm_elems d' = filter (fun q => negb (pos_eqb q p)) (dm_elems d) ++ children_pos p e
        /\ Forall2 (splitted y p (children_pos p e)) (dm_configs d) (dm_configs d')
        /\ dm_name d' = dm_name d /\ dm_aware d' = dm_aware d /\ dm_last d' = dm_last d).
Proof.
  intros y p d at_ Hs O K L N. destruct (dm_contains d p) eqn:C1.
  2:{ unfold dm_split. rewrite C1. exists false, d, at_. split; auto. split; [|split; auto; discriminate]. split; [discriminate|].
      intros [C _]. apply not_true_iff_false in C1. destruct C1. apply existsb_exists. exists p. split; auto. apply pos_eqb_refl. }
  assert (In p (dm_elems d)) as Ip.
  { apply existsb_exists in C1. destruct C1 as [q [Iq Eq]]. apply pos_eqb_eq in Eq. subst. auto. }
  destruct (dk_exist _ _ K p Ip) as [e He]. destruct (e_children e) as [|e1 es] eqn:Ech.
  { unfold dm_split. rewrite C1, He. unfold children_pos. rewrite Ech. simpl. exists false, d, at_. split; auto. split; [|split; auto; discriminate].
    split; [discriminate|]. intros [_ [f [Hf C]]]. inversion Hf; subst. congruence. }
  assert (e_children e <> []) as Nch by congruence.
  destruct (split_spec y p e d at_ Hs K Ip He Nch) as [cfs' [E F]].
  rewrite E. do 3 eexists. split; [reflexivity|]. split; [split; eauto|]. split; [discriminate|]. intros _.
  set (ps := children_pos p e) in *.
  assert (forall q, In q ps -> descendant_of q p = true) as Dps.
  { intros q Hq. apply children_pos_In in Hq. destruct Hq as [i [-> _]]. apply child_desc. }
  assert (forall q, In q ps -> elem_at (sy_root y) q <> None) as Eps.
  { intros q Hq. apply children_pos_In in Hq. destruct Hq as [i [-> Hi]]. rewrite elem_at_app, He. simpl.
    destruct (nth_error (e_children e) i) eqn:En; [discriminate|]. apply nth_error_None in En. lia. }
  assert (forall q, In q ps -> ~ In q (dm_elems d)) as Nps.
  { intros q Hq Iq. apply Dps in Hq. apply descendant_spec in Hq. destruct Hq as [A Ne].
    destruct (proj2 (dk_separate _ _ K) p q Ip Iq Ne) as [U _]. auto. }
  assert (map cf_id cfs' = map cf_id (dm_configs d)) as Eids.
  { apply (same_ids (splitted y p ps)); auto. intros c c' H. apply H. }
  match goal with |- domain_ok y ?D /\ _ => set (d' := D) end.
  destruct (domain_ok_ids y d d' K Eids eq_refl eq_refl) as [I1 [I2 I3]].
  assert (dm_elems d' = filter (fun q => negb (pos_eqb q p)) (dm_elems d) ++ ps) as Ed by auto.
  assert (domain_ok y d') as K'.
  { constructor; auto.
    - rewrite Ed. intros q Hq. apply in_app_or in Hq. destruct Hq as [Hq|Hq].
      + apply filter_In in Hq. apply (dk_exist _ _ K). tauto.
      + apply Eps in Hq. destruct (elem_at (sy_root y) q); [eauto|congruence].
    - rewrite Ed. assert (separate (filter (fun q => negb (pos_eqb q p)) (dm_elems d))) as S1 by (apply separate_filter; apply (dk_separate _ _ K)).
      assert (forall a b, In a (filter (fun q => negb (pos_eqb q p)) (dm_elems d)) -> In b ps -> unrelated a b) as U.
      { intros a b Ha Hb. apply filter_In in Ha. destruct Ha as [Ia Na]. apply negb_true_iff, pos_eqb_neq in Na.
        destruct (proj2 (dk_separate _ _ K) a p Ia Ip Na) as [U1 U2]. pose proof (Dps b Hb) as Db. apply descendant_spec in Db. destruct Db as [A Nb].
        split; intros C.
        - destruct (above_both a p b C A); auto.
        - apply U2. eapply above_trans; eauto. }
      split.
      + apply NoDup_app; [apply S1|apply children_pos_NoDup|]. intros x X1 X2. apply filter_In in X1. apply (Nps x X2). tauto.
      + intros a b Ha Hb Ne. apply in_app_or in Ha. apply in_app_or in Hb. destruct Ha as [Ha|Ha], Hb as [Hb|Hb].
        * apply S1; auto.
        * auto.
        * apply unrelated_sym. auto.
        * apply children_pos_In in Ha. apply children_pos_In in Hb. destruct Ha as [i [-> _]], Hb as [j [-> _]]. apply children_unrelated. congruence.
    - rewrite Ed. intros c' Hc'. destruct (Forall2_in_r _ _ _ _ _ c' F Hc') as [c [Ic [_ [_ [_ [o [news [A1 [A2 [A3 [A4 [A5 _]]]]]]]]]]]].
      destruct (dk_configs _ _ K c Ic) as [Pc Ac]. split; rewrite A3.
      + rewrite map_app, A4. apply Permutation_app_tail.
        rewrite (map_filter _ _ ar_pos (fun q => negb (pos_eqb q p))). apply Permutation_filter. auto.
      + apply Forall_app. split; auto. rewrite Forall_forall in *. intros a Ha. apply filter_In in Ha. apply Ac. tauto.
    - rewrite Ed. intros s. cbn [d' dm_syncers]. rewrite fold_union_In, (dk_syncers _ _ K).
      assert (elem_at (sy_root y) p <> None) as Ep by congruence. split.
      + intros [[q [Iq Is]]|[q [Iq Is]]].
        * destruct (pos_eq_dec q p) as [->|Nq].
          -- apply syncer_set_In in Is; auto. destruct (linked_child y p e s He Nch Is) as [i [Hi Li]].
             assert (In (p ++ [i]) ps) as Ii by (apply children_pos_In; eauto).
             exists (p ++ [i]). split; [apply in_or_app; auto|]. apply syncer_set_In; auto.
          -- exists q. split; auto. apply in_or_app. left. apply filter_In. split; auto. apply negb_true_iff, pos_eqb_neq. auto.
        * exists q. split; auto. apply in_or_app. auto.
      + intros [q [Iq Is]]. apply in_app_or in Iq. destruct Iq as [Iq|Iq]; [|eauto]. apply filter_In in Iq. left. exists q. tauto.
    - cbn [d' dm_syncers]. apply fold_union_sorted. apply (dk_sorted _ _ K). }
  split; auto. split; auto. split; [|split; [|split; [|exists e; auto 8]]].
  - intros q. change (dm_id d') with (dm_id d). rewrite Ed, detach_In, !in_app_iff, filter_In, negb_true_iff, pos_eqb_neq, (L q).
    assert (In (q, dm_id d) (map (fun x => (x, dm_id d)) ps) <-> In q ps) as Mp.
    { rewrite in_map_iff. split; [intros [x [X1 X2]]; congruence|intros H; exists q; auto]. }
    rewrite Mp. split.
    + intros [[H|H] [H2|H2]]; auto; congruence.
    + intros [[H1 H2]|H]; auto. split; auto. left. intros ->. apply (Nps p H). auto.
  - intros q id Nid. rewrite detach_In, in_app_iff. split; [|auto]. intros [[H|H] _]; auto.
    apply in_map_iff in H. destruct H as [x [X _]]. congruence.
  - apply NoDup_filter. apply NoDup_app; auto.
    + apply FinFun.Injective_map_NoDup; [|apply children_pos_NoDup]. intros a b H. congruence.
    + intros x X1 X2. apply in_map_iff in X2. destruct X2 as [q [<- X2]]. apply L in X1. apply (Nps q X2). auto.
Qed.

(** ** Named configurations *)

Definition cname (n : str) (c : config) : bool := str_eqb (cf_path_name c) n.

Lemma dm_find_split : forall n d c, dm_find n d = Some c ->
  exists l1 l2, dm_configs d = l1 ++ c :: l2 /\ cf_path_name c = n /\ (forall k, In k l1 -> cf_path_name k <> n).
Proof.
  intros n d c. unfold dm_find. induction (dm_configs d) as [|k l IH]; simpl; [discriminate|].
  destruct (str_eqb (cf_path_name k) n) eqn:E; intros H.
  - inversion H; subst k. apply str_eqb_eq in E. exists [], l. split; auto.
  - destruct (IH H) as [l1 [l2 [-> [H2 H3]]]]. exists (k :: l1), l2. split; auto. split; auto. intros j [<-|Hj]; auto.
    intros C. apply str_eqb_eq in C. congruence.
Qed.

Lemma dm_find_In : forall n d c, dm_find n d = Some c -> In c (dm_configs d).
Proof. intros n d c H. apply dm_find_split in H. destruct H as [l1 [l2 [-> _]]]. apply in_or_app. simpl. auto. Qed.

Lemma dm_find_None : forall n d, dm_find n d = None <-> forall c, In c (dm_configs d) -> cf_path_name c <> n.
Proof.
  intros n d. unfold dm_find. split.
  - intros H c Hc C. apply (find_none _ _ H) in Hc. apply str_eqb_eq in C. congruence.
  - intros H. destruct (find _ _) eqn:E; auto. apply find_some in E. destruct E as [E1 E2]. apply str_eqb_eq in E2. destruct (H c); auto.
Qed.

Lemma upd_config_split : forall A n (f : config -> outcome (A * config)) l1 c l2, cf_path_name c = n ->
  (forall k, In k l1 -> cf_path_name k <> n) ->
  upd_config n f (l1 ++ c :: l2) = (do x <- f c; Ok (fst x, l1 ++ snd x :: l2)).
Proof.
  intros A n f l1 c l2 E H. induction l1 as [|k l1 IH]; cbn [app upd_config].
  - rewrite (proj2 (str_eqb_eq _ _) E). auto.
  - destruct (str_eqb (cf_path_name k) n) eqn:Ek.
    + apply str_eqb_eq in Ek. destruct (H k); simpl; auto.
    + rewrite IH by (intros; apply H; simpl; auto). destruct (f c) as [[a c']| | |]; auto.
Qed.

Lemma drop_config_split : forall n l1 c l2, cf_path_name c = n -> (forall k, In k l1 -> cf_path_name k <> n) ->
  drop_config n (l1 ++ c :: l2) = l1 ++ l2.
Proof.
  intros n l1 c l2 E H. induction l1 as [|k l1 IH]; cbn [app drop_config].
  - rewrite (proj2 (str_eqb_eq _ _) E). auto.
  - destruct (str_eqb (cf_path_name k) n) eqn:Ek.
    + apply str_eqb_eq in Ek. destruct (H k); simpl; auto.
    + rewrite IH by (intros; apply H; simpl; auto). auto.
Qed.

(** A domain whose elements, syncers and address do not change. *)
Definition same_shape (d d' : domain) : Prop :=
  dm_id d' = dm_id d /\ dm_elems d' = dm_elems d /\ dm_syncers d' = dm_syncers d.

Lemma same_shape_ok : forall y d d', domain_ok y d -> same_shape d d' ->
  (forall c, In c (dm_configs d') -> config_ok (sy_root y) (dm_elems d) c) ->
  NoDup (map cf_id (dm_configs d')) -> (forall c, In c (dm_configs d') -> cf_id c < dm_fresh d') ->
  (forall i, dm_last d' = Some i -> exists c, In c (dm_configs d') /\ cf_id c = i) -> domain_ok y d'.
Proof.
  intros y d d' K [E1 [E2 E3]] Hc H1 H2 H3. destruct K. constructor; rewrite ?E2, ?E3; auto.
Qed.

(** Replacing a configuration by another one at the same address. *)
Lemma replace_config_ok : forall y d l1 c l2 c' d', domain_ok y d -> dm_configs d = l1 ++ c :: l2 ->
  config_ok (sy_root y) (dm_elems d) c' -> cf_id c' = cf_id c ->
  same_shape d d' -> dm_configs d' = l1 ++ c' :: l2 -> dm_fresh d' = dm_fresh d ->
  (dm_last d' = dm_last d \/ dm_last d' = None \/ dm_last d' = Some (cf_id c)) ->
  domain_ok y d'.
Proof.
  intros y d l1 c l2 c' d' K E Kc Ei Sh E' Ef El.
  assert (map cf_id (dm_configs d') = map cf_id (dm_configs d)) as Em by (rewrite E, E', !map_app; simpl; rewrite Ei; auto).
  assert (forall i, (exists k, In k (dm_configs d) /\ cf_id k = i) -> exists k, In k (dm_configs d') /\ cf_id k = i) as T.
  { intros i [k [H1 H2]]. apply (in_map cf_id) in H1. rewrite <- Em in H1. apply in_map_iff in H1. destruct H1 as [j [H3 H4]]. exists j. split; auto. congruence. }
  apply (same_shape_ok y d); auto.
  - intros k. rewrite E', in_app_iff. simpl. intros H.
    assert (In k (dm_configs d) \/ k = c') as [H2| ->] by (rewrite E, in_app_iff; simpl; intuition); auto. apply (dk_configs _ _ K). auto.
  - rewrite Em. apply (dk_ids _ _ K).
  - intros k H. apply (in_map cf_id) in H. rewrite Em in H. apply in_map_iff in H. destruct H as [j [<- H]]. rewrite Ef. apply (dk_fresh _ _ K). auto.
  - intros i H. apply T. destruct El as [El|[El|El]]; rewrite El in H.
    + apply (dk_last _ _ K). auto.
    + discriminate.
    + inversion H; subst. exists c. split; auto. rewrite E. apply in_or_app. simpl. auto.
Qed.

Lemma config_same_areas : forall root l c c', config_ok root l c -> cf_areas c' = cf_areas c -> config_ok root l c'.
Proof. intros root l c c' [H1 H2] E. split; rewrite E; auto. Qed.

(** ** New configurations *)

Lemma new_areas_spec : forall y ps, (forall p, In p ps -> exists e, elem_at (sy_root y) p = Some e) ->
  exists l, omap_list (new_area y) ps = Ok l /\ map ar_pos l = ps /\ Forall (area_ok (sy_root y)) l.
Proof.
  intros y ps H. induction ps as [|p ps IH]; cbn [omap_list]; [exists []; auto|].
  destruct (H p) as [e He]; [simpl; auto|]. destruct (new_area_spec y p e He) as [a [A1 [A2 [A3 A4]]]]. rewrite A1. cbn [obind].
  destruct IH as [l [L1 [L2 L3]]]; [intros; apply H; simpl; auto|]. rewrite L1. cbn [obind]. exists (a :: l). split; auto. split; [simpl; congruence|]. auto.
Qed.

Lemma cf_validate_spec : forall y l main c, structure_ok y -> config_ok (sy_root y) l c -> List.length main = footprint (sy_root y) ->
  exists c', cf_validate y main c = Ok c' /\ config_ok (sy_root y) l c' /\ config_valid c' /\ cf_id c' = cf_id c /\ cf_name c' = cf_name c
    /\ cf_rule c' = cf_rule c /\ map ar_pos (cf_areas c') = map ar_pos (cf_areas c)
    /\ Forall2 (fun a a' => ar_pos a' = ar_pos a /\ area_ok (sy_root y) a' /\ (ar_valid a = true -> a' = a)
          /\ (ar_valid a = false -> forall i, owns (sy_root y) (ar_pos a) i -> abit (sy_root y) a' i = mbit main i)) (cf_areas c) (cf_areas c').
Proof.
  intros y l main c [Hw _] [Pc Ac] Lm. unfold cf_validate.
  destruct (omap_list_ok _ _ (area_validate y main) (fun a a' => (area_ok (sy_root y) a' /\ ar_valid a' = true) /\ ar_pos a' = ar_pos a /\ area_ok (sy_root y) a' /\ (ar_valid a = true -> a' = a)
          /\ (ar_valid a = false -> forall i, owns (sy_root y) (ar_pos a) i -> abit (sy_root y) a' i = mbit main i)) (cf_areas c)) as [l' [E F]].
  { intros a Ia. rewrite Forall_forall in Ac. destruct (area_validate_spec y main a Hw (Ac a Ia) Lm) as [a' [H1 [H2 [H3 [H4 [H5 H6]]]]]]. exists a'. auto 10. }
  rewrite E. unfold omap. cbn [obind]. eexists. split; [reflexivity|]. cbn [cf_areas cf_id cf_name cf_rule with_areas].
  assert (map ar_pos l' = map ar_pos (cf_areas c)) as Em by (apply Forall2_map_eq; eapply Forall2_impl2; [|exact F]; simpl; tauto).
  assert (Forall (fun a => area_ok (sy_root y) a /\ ar_valid a = true) l') as G.
  { rewrite Forall_forall. intros a' Ha'. destruct (Forall2_in_r _ _ _ _ _ a' F Ha') as [a [_ H]]. tauto. }
  split; [|split; [|split; [|split; [|split; [|split]]]]]; auto.
  - split; cbn [cf_areas with_areas]; [rewrite Em; auto|]. eapply Forall_impl; [|exact G]. simpl. tauto.
  - unfold config_valid. cbn [cf_areas with_areas]. eapply Forall_impl; [|exact G]. simpl. tauto.
  - eapply Forall2_impl2; [|exact F]. simpl. tauto.
Qed.

(** Settings of [g], in the order of [c]. *)
Lemma against_loop_spec : forall y gl l, NoDup (map ar_pos gl) -> NoDup (map ar_pos l) -> Forall (area_ok (sy_root y)) gl -> Forall (area_ok (sy_root y)) l ->
  (forall g, In g gl -> In (ar_pos g) (map ar_pos l)) ->
  exists l', against_loop gl l = Ok l' /\ Forall2 (fun a a' => ar_pos a' = ar_pos a
     /\ ((exists g, In g gl /\ ar_pos g = ar_pos a /\ a' = Area (ar_pos a) (ar_bb g) true) \/ (~ In (ar_pos a) (map ar_pos gl) /\ a' = a))) l l'.
Proof.
  intros y gl. induction gl as [|g gl IH]; intros l Ng Nl Fg Fl H; cbn [against_loop].
  - exists l. split; auto. clear. induction l; constructor; auto.
  - inversion Ng; subst. inversion Fg; subst. pose proof (H g) as Hg. cbn [In] in Hg. specialize (Hg (or_introl eq_refl)).
    apply in_map_iff in Hg. destruct Hg as [a [Ea Ia]].
    assert (area_ok (sy_root y) a) as Aa by (rewrite Forall_forall in Fl; auto).
    pose proof (area_against_spec y g a ltac:(auto) Aa (eq_sym Ea)) as E1.
    rewrite (upd_area_map (ar_pos g) _ l a _ Nl Ia Ea E1). cbn [obind].
    set (a1 := Area (ar_pos a) (ar_bb g) true) in *.
    assert (ar_pos a1 = ar_pos g) as Ea1 by auto.
    assert (area_ok (sy_root y) a1) as Aa1.
    { destruct H4 as [e [G1 G2]]. exists e. cbn [a1 ar_pos ar_bb]. rewrite Ea. auto. }
    destruct (IH (map (replace_area (ar_pos g) a1) l)) as [l' [E2 F2]]; auto.
    + rewrite replace_area_pos; auto.
    + rewrite Forall_forall in *. intros b Hb. apply in_map_iff in Hb. destruct Hb as [c [<- Ic]]. unfold replace_area.
      destruct (pos_eqb (ar_pos c) (ar_pos g)); auto.
    + intros k Hk. rewrite replace_area_pos by auto. apply H. simpl. auto.
    + exists l'. split; auto.
      assert (forall b, In b l -> pos_eqb (ar_pos b) (ar_pos g) = true -> b = a) as Hu.
      { intros b Hb Q. apply pos_eqb_eq in Q. apply (NoDup_map_in _ _ ar_pos l); auto. congruence. }
      clear - F2 Hu H2 Ea Ea1. revert l' F2 Hu. induction l as [|b l IHl]; intros l' F Hu; simpl in F; inversion F as [|z0 b' z1 l'' X0 Y0]; subst; constructor.
      * clear IHl F. destruct X0 as [X1 X2]. unfold replace_area in *.
        destruct (pos_eqb (ar_pos b) (ar_pos g)) eqn:Q.
        -- rewrite (Hu b) in * by (simpl; auto). split; [congruence|]. left. exists g. split; [simpl; auto|]. split; auto.
           destruct X2 as [[k [X3 [X4 X5]]]|[_ X3]]; auto. destruct H2. rewrite <- Ea1, <- X4. apply in_map. auto.
        -- split; auto. destruct X2 as [[k [X3 [X4 X5]]]|[X3 X4]].
           ++ left. exists k. simpl. auto.
           ++ right. split; auto. intros [C|C]; [|auto]. apply pos_eqb_neq in Q. congruence.
      * apply IHl; auto. intros; apply Hu; simpl; auto.
Qed.

Lemma cf_against_spec : forall y l g c, NoDup l -> config_ok (sy_root y) l g -> config_ok (sy_root y) l c ->
  exists c', cf_validate_against g c = Ok c' /\ config_ok (sy_root y) l c' /\ config_valid c' /\ cf_id c' = cf_id c /\ cf_name c' = cf_name c
    /\ cf_rule c' = cf_rule c /\ map ar_pos (cf_areas c') = map ar_pos (cf_areas c)
    /\ (forall a', In a' (cf_areas c') -> exists a, In a (cf_areas g) /\ ar_pos a = ar_pos a' /\ ar_bb a' = ar_bb a).
Proof.
  intros y l g c N Kg Kc. unfold cf_validate_against. pose proof Kg as [Pg Ag]. pose proof Kc as [Pc Ac].
  assert (List.length (cf_areas c) = List.length (cf_areas g)) as El.
  { rewrite <- (map_length ar_pos (cf_areas c)), <- (map_length ar_pos (cf_areas g)). rewrite (Permutation_length Pc), (Permutation_length Pg). auto. }
  rewrite (proj2 (Nat.eqb_eq _ _) El).
  destruct (against_loop_spec y (cf_areas g) (cf_areas c)) as [l' [E F]]; auto.
  { eapply config_nodup; eauto. } { eapply config_nodup; eauto. }
  { intros a Ha. apply (Permutation_in _ (Permutation_sym Pc)). apply (Permutation_in _ Pg). apply in_map. auto. }
  rewrite E. unfold omap. cbn [obind]. eexists. split; [reflexivity|]. cbn [cf_areas cf_id cf_name cf_rule with_areas].
  assert (map ar_pos l' = map ar_pos (cf_areas c)) as Em by (apply Forall2_map_eq; eapply Forall2_impl2; [|exact F]; simpl; tauto).
  assert (forall a', In a' l' -> exists k, In k (cf_areas g) /\ ar_pos k = ar_pos a' /\ a' = Area (ar_pos a') (ar_bb k) true) as G.
  { intros a' Ha'. destruct (Forall2_in_r _ _ _ _ _ a' F Ha') as [a [Ia [X1 [[k [X2 [X3 X4]]]|[X2 X3]]]]].
    - exists k. split; auto. split; [congruence|]. rewrite X1. auto.
    - destruct X2. apply (Permutation_in _ (Permutation_sym Pg)). apply (Permutation_in _ Pc). apply in_map. auto. }
  split; [|split; [|split; [|split; [|split; [|split]]]]]; auto.
  - split; cbn [cf_areas with_areas]; [rewrite Em; auto|]. rewrite Forall_forall in *. intros a' Ha'. destruct (G a' Ha') as [k [K1 [K2 K3]]].
    destruct (Ag k K1) as [e [G1 G2]]. exists e. rewrite K3. cbn [ar_pos ar_bb]. rewrite <- K2. auto.
  - unfold config_valid. cbn [cf_areas with_areas]. rewrite Forall_forall. intros a' Ha'. destruct (G a' Ha') as [k [_ [_ ->]]]. auto.
  - intros a' Ha'. destruct (G a' Ha') as [k [K1 [K2 K3]]]. exists k. split; auto. split; auto. rewrite K3. auto.
Qed.

Lemma dm_create_config_ok : forall y n main d, structure_ok y -> List.length main = footprint (sy_root y) -> domain_ok y d ->
  exists b d', dm_create_config y n main d = Ok (b, d')
    /\ (b = true <-> forall c, In c (dm_configs d) -> cf_path_name c <> n)
    /\ (b = false -> d' = d)
    /\ (b = true -> domain_ok y d' /\ same_shape d d' /\ dm_name d' = dm_name d /\ dm_aware d' = dm_aware d /\ dm_last d' = dm_last d
        /\ exists c, dm_configs d' = dm_configs d ++ [c] /\ cf_name c = n /\ cf_rule c = None /\ config_valid c
           /\ map ar_pos (cf_areas c) = dm_elems d
           /\ match dm_configs d with
              | g :: _ => forall a, In a (cf_areas c) -> exists k, In k (cf_areas g) /\ ar_pos k = ar_pos a /\ ar_bb a = ar_bb k
              | [] => forall a i, In a (cf_areas c) -> owns (sy_root y) (ar_pos a) i -> abit (sy_root y) a i = mbit main i
              end).
Proof.
  intros y n main d Hs Lm K. unfold dm_create_config. destruct (dm_find n d) eqn:Ef.
  { exists false, d. split; auto. split; [|split; auto; discriminate]. split; [discriminate|]. intros C. apply dm_find_None in C. congruence. }
  destruct (new_areas_spec y (dm_elems d) (dk_exist _ _ K)) as [l [L1 [L2 L3]]]. rewrite L1. cbn [obind].
  set (c0 := Config (dm_fresh d) n None l).
  assert (config_ok (sy_root y) (dm_elems d) c0) as K0 by (split; cbn [c0 cf_areas]; [rewrite L2; auto|auto]).
  assert (exists c, match dm_configs d with g :: _ => cf_validate_against g c0 | [] => cf_validate y main c0 end = Ok c
     /\ config_ok (sy_root y) (dm_elems d) c /\ config_valid c /\ cf_id c = dm_fresh d /\ cf_name c = n /\ cf_rule c = None
     /\ map ar_pos (cf_areas c) = dm_elems d
     /\ match dm_configs d with
              | g :: _ => forall a, In a (cf_areas c) -> exists k, In k (cf_areas g) /\ ar_pos k = ar_pos a /\ ar_bb a = ar_bb k
              | [] => forall a i, In a (cf_areas c) -> owns (sy_root y) (ar_pos a) i -> abit (sy_root y) a i = mbit main i
              end) as [c [C1 [C2 [C3 [C4 [C5 [C6 [C7 C8]]]]]]]].
  { destruct (dm_configs d) as [|g gs] eqn:Eg.
    - destruct (cf_validate_spec y (dm_elems d) main c0 Hs K0 Lm) as [c [V1 [V2 [V3 [V4 [V5 [V6 [V7 V8]]]]]]]].
      exists c. rewrite V7. cbn [c0 cf_areas]. repeat (split; auto). intros a' i Ha' Hi.
      destruct (Forall2_in_r _ _ _ _ _ a' V8 Ha') as [a [Ia [X1 [X2 [X3 X4]]]]]. rewrite X1 in Hi. apply X4; auto.
      cbn [c0 cf_areas] in Ia. clear - L1 Ia. revert l L1 Ia. induction (dm_elems d) as [|q qs IH]; cbn [omap_list]; intros l L1 Ia.
      + inversion L1; subst. destruct Ia.
      + destruct (new_area y q) eqn:Eq; cbn [obind] in L1; try discriminate. destruct (omap_list (new_area y) qs) eqn:Eo; cbn [obind] in L1; try discriminate.
        inversion L1; subst. destruct Ia as [<-|Ia]; [|eapply IH; eauto].
        unfold new_area in Eq. destruct (elem_at (sy_root y) q); [|discriminate]. inversion Eq. auto.
    - destruct (cf_against_spec y (dm_elems d) g c0) as [c [V1 [V2 [V3 [V4 [V5 [V6 [V7 V8]]]]]]]]; auto.
      + apply (dk_separate _ _ K).
      + apply (dk_configs _ _ K). rewrite Eg. simpl. auto.
      + exists c. rewrite V7. cbn [c0 cf_areas]. repeat (split; auto). }
  rewrite C1. cbn [obind]. do 2 eexists. split; [reflexivity|]. split; [split; auto; intros _; apply dm_find_None; auto|]. split; [discriminate|]. intros _.
  cbn [dm_name dm_aware dm_last dm_configs with_configs with_fresh].
  split; [|split; [repeat split|split; auto; split; auto; split; auto; exists c; auto 10]].
  apply (same_shape_ok y d); auto; [repeat split|..]; cbn [dm_configs with_configs with_fresh dm_fresh dm_last].
  - intros k Hk. apply in_app_or in Hk. destruct Hk as [Hk|[<-|[]]]; auto. apply (dk_configs _ _ K). auto.
  - rewrite map_app. apply NoDup_app; [apply (dk_ids _ _ K)|simpl; repeat constructor; auto|]. intros i I1 [I2|[]].
    apply in_map_iff in I1. destruct I1 as [k [<- I1]]. apply (dk_fresh _ _ K) in I1. lia.
  - intros k Hk. apply in_app_or in Hk. destruct Hk as [Hk|[<-|[]]]; [|lia]. apply (dk_fresh _ _ K) in Hk. lia.
  - intros i Hi. destruct (dk_last _ _ K i Hi) as [k [I1 I2]]. exists k. split; auto. apply in_or_app. auto.
Qed.

(** ** Commands on a configuration *)

Lemma dm_on_config_ok : forall y n (f : config -> outcome (bool * config)) (R : config -> bool -> config -> Prop) d, domain_ok y d ->
  (forall c, config_ok (sy_root y) (dm_elems d) c -> exists b c', f c = Ok (b, c') /\ config_ok (sy_root y) (dm_elems d) c'
     /\ cf_id c' = cf_id c /\ R c b c') ->
  exists b d', dm_on_config n f d = Ok (b, d') /\ domain_ok y d' /\ same_shape d d' /\ dm_name d' = dm_name d /\ dm_aware d' = dm_aware d
    /\ dm_last d' = dm_last d
    /\ ((forall c, In c (dm_configs d) -> cf_path_name c <> n) -> b = false /\ d' = d)
    /\ (forall c, dm_find n d = Some c -> exists l1 l2 c', dm_configs d = l1 ++ c :: l2 /\ (forall k, In k l1 -> cf_path_name k <> n)
          /\ dm_configs d' = l1 ++ c' :: l2 /\ cf_id c' = cf_id c /\ config_ok (sy_root y) (dm_elems d) c' /\ R c b c').
Proof.
  intros y n f R d K Hf. unfold dm_on_config. destruct (dm_find n d) as [c|] eqn:E.
  - destruct (dm_find_split n d c E) as [l1 [l2 [E1 [E2 E3]]]].
    assert (In c (dm_configs d)) as Ic by (rewrite E1; apply in_or_app; simpl; auto).
    destruct (Hf c (dk_configs _ _ K c Ic)) as [b [c' [F1 [F2 [F3 F4]]]]].
    rewrite E1, upd_config_split, F1 by auto. cbn [obind fst snd]. do 2 eexists. split; [reflexivity|].
    split; [|split; [repeat split|]].
    + apply (replace_config_ok y d l1 c l2 c'); auto. repeat split.
    + split; auto. split; auto. split; auto. split.
      * intros C. destruct (C c); auto. apply in_or_app. simpl. auto.
      * intros k Hk. inversion Hk; subst k. exists l1, l2, c'. auto 10.
  - exists false, d. split; auto. split; auto. split; [repeat split|]. split; auto. split; auto. split; auto. split; auto. discriminate.
Qed.

(** Valid settings stay so when a configuration is replaced by a valid one. *)
Lemma replace_valid : forall d d' l1 c c' l2, dm_configs d = l1 ++ c :: l2 -> dm_configs d' = l1 ++ c' :: l2 -> (config_valid c -> config_valid c') ->
  (forall k, In k (dm_configs d) -> config_valid k) -> forall k, In k (dm_configs d') -> config_valid k.
Proof.
  intros d d' l1 c c' l2 E E' H Hv k. rewrite E'. intros Hk. apply in_app_or in Hk. destruct Hk as [Hk|[<-|Hk]].
  - apply Hv. rewrite E. apply in_or_app. auto.
  - apply H. apply Hv. rewrite E. apply in_or_app. simpl. auto.
  - apply Hv. rewrite E. apply in_or_app. simpl. auto.
Qed.

(** DomainConfiguration::save *)
Definition saved (y : system) (main : blackboard) (c c' : config) : Prop :=
  cf_id c' = cf_id c /\ cf_name c' = cf_name c /\ cf_rule c' = cf_rule c
  /\ Forall2 (fun a a' => ar_pos a' = ar_pos a /\ area_ok (sy_root y) a' /\ ar_valid a' = ar_valid a
        /\ forall i, owns (sy_root y) (ar_pos a) i -> abit (sy_root y) a' i = mbit main i) (cf_areas c) (cf_areas c').

Lemma Forall2_pos_ok : forall y l c c', config_ok (sy_root y) l c ->
  Forall2 (fun a a' => ar_pos a' = ar_pos a /\ area_ok (sy_root y) a') (cf_areas c) (cf_areas c') -> config_ok (sy_root y) l c'.
Proof.
  intros y l c c' [P A] F. split.
  - replace (map ar_pos (cf_areas c')) with (map ar_pos (cf_areas c)); auto. symmetry. apply Forall2_map_eq. eapply Forall2_impl2; [|exact F]. simpl. tauto.
  - rewrite Forall_forall. intros a Ha. destruct (Forall2_in_r _ _ _ _ _ a F Ha) as [k [_ H]]. tauto.
Qed.

Lemma cf_save_spec : forall y l main c, structure_ok y -> config_ok (sy_root y) l c -> List.length main = footprint (sy_root y) ->
  exists c', cf_save y main c = Ok c' /\ config_ok (sy_root y) l c' /\ saved y main c c'.
Proof.
  intros y l main c [Hw _] K Lm. pose proof K as [Pc Ac]. unfold cf_save.
  destruct (omap_list_ok _ _ (area_save y main) (fun a a' => ar_pos a' = ar_pos a /\ area_ok (sy_root y) a' /\ ar_valid a' = ar_valid a
        /\ forall i, owns (sy_root y) (ar_pos a) i -> abit (sy_root y) a' i = mbit main i) (cf_areas c)) as [l' [E F]].
  { intros a Ia. rewrite Forall_forall in Ac. destruct (area_save_spec y main a Hw (Ac a Ia) Lm) as [a' [H1 [H2 [H3 [H4 H5]]]]]. exists a'. auto 10. }
  rewrite E. unfold omap. cbn [obind]. eexists. split; [reflexivity|]. split; [|repeat split; auto].
  apply (Forall2_pos_ok y l c); auto. cbn [cf_areas with_areas]. eapply Forall2_impl2; [|exact F]. simpl. tauto.
Qed.

Lemma saved_valid : forall y main c c', saved y main c c' -> config_valid c -> config_valid c'.
Proof.
  intros y main c c' [_ [_ [_ F]]] H. unfold config_valid in *. rewrite Forall_forall in *. intros a' Ha'.
  destruct (Forall2_in_r _ _ _ _ _ a' F Ha') as [a [Ia [_ [_ [E _]]]]]. rewrite E. auto.
Qed.

(** ** Element sequence *)

Definition area_path (y : system) (a : area) : str := path_in (sy_root y) (ar_pos a).

Lemma find_area_path_split : forall y s l a, find_area_path y s l = Some a ->
  exists l1 l2, l = l1 ++ a :: l2 /\ area_path y a = s /\ (forall k, In k l1 -> area_path y k <> s) /\ drop_area_path y s l = l1 ++ l2.
Proof.
  intros y s l a. induction l as [|k l IH]; cbn [find_area_path drop_area_path]; [discriminate|].
  destruct (str_eqb (path_in (sy_root y) (ar_pos k)) s) eqn:E; intros H.
  - inversion H; subst k. apply str_eqb_eq in E. exists [], l. repeat split; auto.
  - destruct (IH H) as [l1 [l2 [-> [H2 [H3 H4]]]]]. exists (k :: l1), l2. split; auto. split; auto. split; [|rewrite H4; auto].
    intros j [<-|Hj]; auto. intros C. apply str_eqb_eq in C. unfold area_path in C. congruence.
Qed.

Lemma find_area_path_None : forall y s l, find_area_path y s l = None <-> forall a, In a l -> area_path y a <> s.
Proof.
  intros y s l. induction l as [|k l IH]; cbn [find_area_path]; [split; auto|].
  destruct (str_eqb (path_in (sy_root y) (ar_pos k)) s) eqn:E.
  - split; [discriminate|]. intros C. apply str_eqb_eq in E. destruct (C k); simpl; auto.
  - rewrite IH. split.
    + intros H a [<-|Ha]; auto. intros C. apply str_eqb_eq in C. unfold area_path in C. congruence.
    + intros H a Ha. apply H. simpl. auto.
Qed.

Lemma find_area_path_app : forall y s l1 l2, find_area_path y s (l1 ++ l2) =
  match find_area_path y s l1 with Some a => Some a | None => find_area_path y s l2 end.
Proof. intros y s l1 l2. induction l1 as [|a l1 IH]; cbn [app find_area_path]; auto. destruct (str_eqb _ _); auto. Qed.

Lemma splice_perm : forall y s placed rest a, find_area_path y s (placed ++ rest) = Some a ->
  Permutation (fst (splice y s placed rest a) ++ snd (splice y s placed rest a)) (placed ++ rest).
Proof.
  intros y s placed rest a H. rewrite find_area_path_app in H. unfold splice. destruct (find_area_path y s placed) as [b|] eqn:E.
  - inversion H; subst b. destruct (find_area_path_split y s placed a E) as [l1 [l2 [-> [_ [_ ->]]]]]. cbn [fst snd].
    rewrite <- !app_assoc. apply Permutation_app_head. cbn [app]. apply Permutation_sym. apply Permutation_middle.
  - destruct (find_area_path_split y s rest a H) as [l1 [l2 [-> [_ [_ ->]]]]]. cbn [fst snd].
    rewrite <- !app_assoc. apply Permutation_app_head. cbn [app]. apply Permutation_middle.
Qed.

Lemma sequence_perm : forall y paths seen placed rest ok l, sequence_loop y paths seen placed rest = (ok, l) -> Permutation l (placed ++ rest).
Proof.
  intros y paths. induction paths as [|s paths IH]; intros seen placed rest ok l H; cbn [sequence_loop] in H.
  - inversion H; subst. auto.
  - destruct (find_area_path y s (placed ++ rest)) as [a|] eqn:E; [|inversion H; subst; auto].
    destruct (existsb (str_eqb s) seen); [inversion H; subst; auto|].
    pose proof (splice_perm y s placed rest a E) as P. destruct (splice y s placed rest a) as [p' r']. cbn [fst snd] in P.
    eapply Permutation_trans; [apply (IH _ _ _ _ _ H)|auto].
Qed.

(** All given paths designate areas of the list and none is given twice: the sequence succeeds exactly then. *)
Lemma sequence_loop_spec : forall y paths seen placed rest,
  seen = map (area_path y) placed -> NoDup (map (area_path y) (placed ++ rest)) -> NoDup seen ->
  (fst (sequence_loop y paths seen placed rest) = true
   <-> NoDup (seen ++ paths) /\ forall s, In s paths -> In s (map (area_path y) (placed ++ rest)))
  /\ (fst (sequence_loop y paths seen placed rest) = true ->
      exists firsts, snd (sequence_loop y paths seen placed rest)
        = placed ++ firsts ++ filter (fun a => negb (existsb (str_eqb (area_path y a)) paths)) rest
      /\ map (area_path y) firsts = paths).
Proof.
  intros y paths. induction paths as [|s paths IH]; intros seen placed rest Es N Ns; cbn [sequence_loop].
  - cbn [fst snd]. rewrite app_nil_r. split; [split; auto; intros _; split; auto; intros ? []|]. intros _. exists []. split; auto.
    cbn [app existsb]. rewrite filter_all; auto.
  - destruct (find_area_path y s (placed ++ rest)) as [a|] eqn:E; cbn [fst snd].
    2:{ split; [|discriminate]. split; [discriminate|]. intros [_ C]. assert (In s (map (area_path y) (placed ++ rest))) as H by (apply C; simpl; auto).
        apply in_map_iff in H. destruct H as [b [H1 H2]]. apply find_area_path_None with (a := b) in E; auto. }
    destruct (existsb (str_eqb s) seen) eqn:Ex; cbn [fst snd].
    { split; [|discriminate]. split; [discriminate|]. intros [C _]. apply existsb_exists in Ex. destruct Ex as [t [T1 T2]]. apply str_eqb_eq in T2. subst t.
      apply NoDup_remove_2 in C. destruct C. apply in_or_app. auto. }
    assert (~ In s seen) as Nin.
    { intros C. apply not_true_iff_false in Ex. destruct Ex. apply existsb_exists. exists s. split; auto. apply str_eqb_eq. auto. }
    rewrite find_area_path_app in E. unfold splice.
    destruct (find_area_path y s placed) as [b|] eqn:Ep.
    { destruct Nin. rewrite Es. destruct (find_area_path_split _ _ _ _ Ep) as [l1 [l2 [-> [H _]]]]. rewrite map_app. apply in_or_app. simpl. auto. }
    destruct (find_area_path_split y s rest a E) as [l1 [l2 [-> [Ea [Hl1 ->]]]]].
    assert (map (area_path y) (placed ++ [a]) = seen ++ [s]) as Es' by (rewrite map_app, <- Es; simpl; rewrite Ea; auto).
    assert (Permutation ((placed ++ [a]) ++ l1 ++ l2) (placed ++ l1 ++ a :: l2)) as P.
    { rewrite <- app_assoc. apply Permutation_app_head. cbn [app]. apply Permutation_middle. }
    destruct (IH (seen ++ [s]) (placed ++ [a]) (l1 ++ l2)) as [I1 I2]; auto.
    { apply (Permutation_NoDup (Permutation_map _ (Permutation_sym P))). auto. }
    { apply NoDup_app; auto; [repeat constructor; auto|]. intros x X1 [<-|[]]. auto. }
    split.
    + rewrite I1. rewrite <- app_assoc. cbn [app]. split; intros [H1 H2]; split; auto.
      * intros t [<-|Ht]; [rewrite !map_app; simpl; rewrite Ea; apply in_or_app; right; apply in_or_app; simpl; auto|].
        apply (Permutation_in _ (Permutation_map _ P)). apply H2. auto.
      * intros t Ht. apply (Permutation_in _ (Permutation_map _ (Permutation_sym P))). apply H2. simpl. auto.
    + intros H. destruct (I2 H) as [firsts [F1 F2]]. exists (a :: firsts). rewrite F1. split; [|simpl; congruence].
      rewrite <- !app_assoc. cbn [app]. do 3 f_equal. rewrite !filter_app. cbn [filter existsb].
      rewrite (proj2 (str_eqb_eq _ _) Ea). cbn [orb negb].
      assert (NoDup (map (area_path y) (l1 ++ a :: l2))) as N2 by (rewrite map_app in N; apply NoDup_app_inv in N; tauto).
      rewrite map_app in N2. cbn [map] in N2. apply NoDup_remove_2 in N2.
      f_equal; apply filter_ext_in2; intros b Hb; cbn [existsb]; f_equal; destruct (str_eqb (area_path y b) s) eqn:Q; auto;
        apply str_eqb_eq in Q; destruct N2; rewrite Ea, <- Q; apply in_or_app; [left|right]; apply in_map; auto.
Qed.

Lemma cf_set_sequence_ok : forall y l paths c ok c', config_ok (sy_root y) l c -> cf_set_sequence y paths c = (ok, c') ->
  config_ok (sy_root y) l c' /\ cf_id c' = cf_id c /\ cf_name c' = cf_name c /\ cf_rule c' = cf_rule c /\ Permutation (cf_areas c') (cf_areas c).
Proof.
  intros y l paths c ok c' [P A] H. unfold cf_set_sequence in H. destruct (sequence_loop y paths [] [] (cf_areas c)) as [b k] eqn:E.
  inversion H; subst. apply sequence_perm in E. cbn [app] in E. cbn [cf_areas with_areas cf_id cf_name cf_rule]. split; [|auto].
  split; cbn [cf_areas with_areas].
  - eapply Permutation_trans; [apply Permutation_map; exact E|auto].
  - rewrite Forall_forall in *. intros a Ha. apply A. apply (Permutation_in _ E). auto.
Qed.

Lemma perm_valid : forall c c', Permutation (cf_areas c') (cf_areas c) -> config_valid c -> config_valid c'.
Proof. intros c c' P H. unfold config_valid in *. rewrite Forall_forall in *. intros a Ha. apply H. apply (Permutation_in _ P). auto. Qed.
