(** Consistency of all the domains. *)
From Coq Require Import List Arith Bool Lia Permutation Sorted.
From Verif Require Import Base BaseProofs TextProofs CriterionModel RuleModel BlackboardModel TreeModel TreeSpec TreeProofs MemSpec SyncModel
  DomainModel DomainSpec MemProofs AreaProofs SyncProofs DomainProofs DomainInv DomainApply.
Import ListNotations.
Local Open Scope nat_scope.

Lemma ds_find_split : forall n s d, ds_find n s = Some d ->
  exists l1 l2, ds_list s = l1 ++ d :: l2 /\ dm_path_name d = n /\ (forall k, In k l1 -> dm_path_name k <> n).
Proof.
  intros n s d. unfold ds_find. induction (ds_list s) as [|k l IH]; simpl; [discriminate|].
  destruct (str_eqb (dm_path_name k) n) eqn:E; intros H.
  - inversion H; subst k. apply str_eqb_eq in E. exists [], l. repeat split; auto.
  - destruct (IH H) as [l1 [l2 [-> [H2 H3]]]]. exists (k :: l1), l2. split; auto. split; auto. intros j [<-|Hj]; auto.
    intros C. apply str_eqb_eq in C. congruence.
Qed.

Lemma ds_find_In : forall n s d, ds_find n s = Some d -> In d (ds_list s).
Proof. intros n s d H. apply ds_find_split in H. destruct H as [l1 [l2 [-> _]]]. apply in_or_app. simpl. auto. Qed.

Lemma ds_find_None : forall n s, ds_find n s = None <-> forall d, In d (ds_list s) -> dm_path_name d <> n.
Proof.
  intros n s. unfold ds_find. split.
  - intros H c Hc C. apply (find_none _ _ H) in Hc. apply str_eqb_eq in C. congruence.
  - intros H. destruct (find _ _) eqn:E; auto. apply find_some in E. destruct E as [E1 E2]. apply str_eqb_eq in E2. destruct (H d); auto.
Qed.

Lemma upd_domain_split : forall A n (f : domain -> outcome (A * domain)) l1 d l2, dm_path_name d = n ->
  (forall k, In k l1 -> dm_path_name k <> n) ->
  upd_domain n f (l1 ++ d :: l2) = (do x <- f d; Ok (fst x, l1 ++ snd x :: l2)).
Proof.
  intros A n f l1 c l2 E H. induction l1 as [|k l1 IH]; cbn [app upd_domain].
  - rewrite (proj2 (str_eqb_eq _ _) E). auto.
  - destruct (str_eqb (dm_path_name k) n) eqn:Ek.
    + apply str_eqb_eq in Ek. destruct (H k); simpl; auto.
    + rewrite IH by (intros; apply H; simpl; auto). destruct (f c) as [[a c']| | |]; auto.
Qed.

Lemma drop_domain_split : forall n l1 d l2, dm_path_name d = n -> (forall k, In k l1 -> dm_path_name k <> n) ->
  drop_domain n (l1 ++ d :: l2) = l1 ++ l2.
Proof.
  intros n l1 c l2 E H. induction l1 as [|k l1 IH]; cbn [app drop_domain].
  - rewrite (proj2 (str_eqb_eq _ _) E). auto.
  - destruct (str_eqb (dm_path_name k) n) eqn:Ek.
    + apply str_eqb_eq in Ek. destruct (H k); simpl; auto.
    + rewrite IH by (intros; apply H; simpl; auto). auto.
Qed.

Lemma ds_link : forall y s d, domains_ok y s -> In d (ds_list s) -> att_link d (ds_att s).
Proof.
  intros y s d K Hd p. rewrite (ds_attached _ _ K). split.
  - intros [k [H1 [H2 H3]]]. rewrite (NoDup_map_in _ _ dm_id (ds_list s) d k (ds_ids _ _ K)); auto.
  - intros H. exists d. auto.
Qed.

(** Replacing a domain by another one at the same address. *)
Lemma replace_domain_ok : forall y s l1 d l2 d' at', domains_ok y s -> ds_list s = l1 ++ d :: l2 ->
  domain_ok y d' -> dm_id d' = dm_id d -> att_link d' at' ->
  (forall p id, id <> dm_id d -> (In (p, id) at' <-> In (p, id) (ds_att s))) -> NoDup at' ->
  domains_ok y (Domains (l1 ++ d' :: l2) at' (ds_fresh s)).
Proof.
  intros y s l1 d l2 d' at' K E K' Ei L O N. 
  assert (map dm_id (l1 ++ d' :: l2) = map dm_id (ds_list s)) as Em by (rewrite E, !map_app; simpl; rewrite Ei; auto).
  assert (forall k, In k (l1 ++ d' :: l2) -> k = d' \/ In k (ds_list s)) as I1.
  { intros k. rewrite E, !in_app_iff. simpl. intuition. }
  assert (In d (ds_list s)) as Id by (rewrite E; apply in_or_app; simpl; auto).
  constructor; cbn [ds_list ds_att ds_fresh].
  - intros k Hk. destruct (I1 k Hk) as [->|H]; auto. apply (ds_domain _ _ K). auto.
  - rewrite Em. apply (ds_ids _ _ K).
  - intros k Hk. destruct (I1 k Hk) as [->|H].
    + rewrite Ei. apply (ds_fresh_ok _ _ K). auto.
    + apply (ds_fresh_ok _ _ K). auto.
  - intros p id. destruct (Nat.eq_dec id (dm_id d)) as [->|Ne].
    + rewrite <- Ei, (L p). split.
      * intros H. exists d'. split; auto. apply in_or_app. simpl. auto.
      * intros [k [H1 [H2 H3]]]. assert (k = d') as ->; auto. apply (NoDup_map_in _ _ dm_id (l1 ++ d' :: l2)); auto.
        -- rewrite Em. apply (ds_ids _ _ K).
        -- apply in_or_app. simpl. auto.
    + rewrite (O p id Ne), (ds_attached _ _ K). split; intros [k [H1 [H2 H3]]]; exists k; split; auto.
      * rewrite E in H1. apply in_app_or in H1. destruct H1 as [H1|[<-|H1]]; [apply in_or_app; auto|congruence|apply in_or_app; simpl; auto].
      * destruct (I1 k H1) as [->|H]; auto. congruence.
  - auto.
Qed.

Lemma replace_all_valid : forall s l1 d l2 d' at' n, ds_list s = l1 ++ d :: l2 ->
  ((forall c, In c (dm_configs d) -> config_valid c) -> forall c, In c (dm_configs d') -> config_valid c) ->
  all_valid s -> all_valid (Domains (l1 ++ d' :: l2) at' n).
Proof.
  intros s l1 d l2 d' at' n E H V k c. cbn [ds_list]. intros Hk Hc. apply in_app_or in Hk. destruct Hk as [Hk|[<-|Hk]].
  - apply (V k); auto. rewrite E. apply in_or_app. auto.
  - apply H; auto. intros j Hj. apply (V d); auto. rewrite E. apply in_or_app. simpl. auto.
  - apply (V k); auto. rewrite E. apply in_or_app. simpl. auto.
Qed.

(** A command on one domain, not changing the attachments. *)
Lemma ds_on_ok : forall y n f s, domains_ok y s ->
  (forall d, In d (ds_list s) -> domain_ok y d -> exists b d', f d = Ok (b, d') /\ domain_ok y d' /\ same_shape d d'
     /\ ((forall c, In c (dm_configs d) -> config_valid c) -> forall c, In c (dm_configs d') -> config_valid c)) ->
  exists b s', ds_on n f s = Ok (b, s') /\ domains_ok y s' /\ (all_valid s -> all_valid s').
Proof.
  intros y n f s K Hf. unfold ds_on. destruct (ds_find n s) as [d|] eqn:E.
  - destruct (ds_find_split n s d E) as [l1 [l2 [E1 [E2 E3]]]].
    assert (In d (ds_list s)) as Id by (eapply ds_find_In; eauto).
    destruct (Hf d Id (ds_domain _ _ K d Id)) as [b [d' [F1 [F2 [F3 F4]]]]].
    rewrite E1, upd_domain_split, F1 by auto. cbn [obind fst snd]. do 2 eexists. split; [reflexivity|]. destruct F3 as [G1 [G2 G3]]. split.
    + apply (replace_domain_ok y s l1 d l2 d'); auto.
      * intros p. rewrite G1, G2. apply (ds_link y s d K Id).
      * tauto.
      * apply (ds_att_once _ _ K).
    + apply (replace_all_valid s l1 d l2 d'); auto.
  - exists false, s. auto.
Qed.

(** A command changing the attachments. *)
Lemma ds_on_att_ok : forall y n f s, domains_ok y s ->
  (forall d, In d (ds_list s) -> exists b d' at', f d (ds_att s) = Ok (b, (d', at')) /\ op_ok y d (ds_att s) d' at') ->
  exists b s', ds_on_att n f s = Ok (b, s') /\ domains_ok y s' /\ (all_valid s -> all_valid s').
Proof.
  intros y n f s K Hf. unfold ds_on_att. destruct (ds_find n s) as [d|] eqn:E.
  - destruct (ds_find_split n s d E) as [l1 [l2 [E1 [E2 E3]]]].
    assert (In d (ds_list s)) as Id by (eapply ds_find_In; eauto).
    destruct (Hf d Id) as [b [d' [at' [F1 F2]]]].
    rewrite E1, upd_domain_split, F1 by auto. cbn [obind fst snd]. do 2 eexists. split; [reflexivity|]. destruct F2. split.
    + apply (replace_domain_ok y s l1 d l2 d'); auto.
    + apply (replace_all_valid s l1 d l2 d'); auto.
  - exists false, s. auto.
Qed.

Lemma ds_add_ok : forall y n p main s, structure_ok y -> one_syncer y -> elem_at (sy_root y) p <> None ->
  List.length main = footprint (sy_root y) -> domains_ok y s ->
  exists b s', ds_add y n p main s = Ok (b, s') /\ domains_ok y s' /\ (all_valid s -> all_valid s').
Proof.
  intros y n p main s Hs O He Lm K. apply ds_on_att_ok; auto. intros d Hd.
  pose proof (ds_link y s d K Hd) as L.
  destruct (dm_add_ok y p (Some main) d (ds_att s) Hs O He) as [b [d' [at' [E [_ [H1 H2]]]]]]; auto.
  { intros m H. inversion H; subst. auto. } { apply (ds_domain _ _ K); auto. } { apply (ds_att_once _ _ K). }
  exists b, d', at'. split; auto. destruct b.
  - destruct (H2 eq_refl) as [A1 [A2 [A3 [A4 [A5 [A6 [A7 _]]]]]]]. constructor; auto.
    intros V c' Hc'. destruct (Forall2_in_r _ _ _ _ _ c' A7 Hc') as [c [Ic Ac]]. apply (added_valid y p main c); auto.
  - destruct (H1 eq_refl) as [-> ->]. apply op_ok_refl; auto. apply (ds_domain _ _ K); auto. apply (ds_att_once _ _ K).
Qed.

Lemma ds_remove_ok : forall y n p s, domains_ok y s ->
  exists b s', ds_remove y n p s = Ok (b, s') /\ domains_ok y s' /\ (all_valid s -> all_valid s').
Proof.
  intros y n p s K. apply ds_on_att_ok; auto. intros d Hd. pose proof (ds_link y s d K Hd) as L.
  destruct (dm_remove_ok y p d (ds_att s) (ds_domain _ _ K d Hd) L (ds_att_once _ _ K)) as [b [d' [at' [E [_ [H1 H2]]]]]].
  exists b, d', at'. split; auto. destruct b.
  - destruct (H2 eq_refl) as [A1 [A2 [A3 [A4 [A5 [A6 [A7 _]]]]]]]. constructor; auto.
    intros V c' Hc'. destruct (Forall2_in_r _ _ _ _ _ c' A7 Hc') as [c [Ic Ac]]. apply (removed_valid p c); auto.
  - destruct (H1 eq_refl) as [-> ->]. apply op_ok_refl; auto. apply (ds_domain _ _ K); auto. apply (ds_att_once _ _ K).
Qed.

Lemma ds_split_ok : forall y n p s, structure_ok y -> one_syncer y -> domains_ok y s ->
  exists b s', ds_split y n p s = Ok (b, s') /\ domains_ok y s' /\ (all_valid s -> all_valid s').
Proof.
  intros y n p s Hs O K. apply ds_on_att_ok; auto. intros d Hd. pose proof (ds_link y s d K Hd) as L.
  destruct (dm_split_ok y p d (ds_att s) Hs O (ds_domain _ _ K d Hd) L (ds_att_once _ _ K)) as [b [d' [at' [E [_ [H1 H2]]]]]].
  rewrite E. cbn [obind fst snd]. exists true, d', at'. split; auto. destruct b.
  - destruct (H2 eq_refl) as [A1 [A2 [A3 [A4 [A5 [e [A6 [A7 [A8 _]]]]]]]]]. constructor; auto.
    intros V c' Hc'. destruct (Forall2_in_r _ _ _ _ _ c' A8 Hc') as [c [Ic Ac]]. apply (splitted_valid y p (children_pos p e) c); auto.
  - destruct (H1 eq_refl) as [-> ->]. apply op_ok_refl; auto. apply (ds_domain _ _ K); auto. apply (ds_att_once _ _ K).
Qed.

Lemma ds_create_ok : forall y n s b s', domains_ok y s -> ds_create n s = (b, s') -> domains_ok y s' /\ (all_valid s -> all_valid s').
Proof.
  intros y n s b s' K H. unfold ds_create in H. destruct (ds_find n s); inversion H; subst; auto. split.
  - constructor; cbn [ds_list ds_att ds_fresh].
    + intros d Hd. apply in_app_or in Hd. destruct Hd as [Hd|[<-|[]]]; [apply (ds_domain _ _ K); auto|].
      constructor; cbn [new_domain dm_elems dm_configs dm_last dm_syncers].
      * intros p [].
      * apply separate_nil.
      * intros c [].
      * constructor.
      * intros c [].
      * discriminate.
      * intros x. split; [intros []|intros [p [[] _]]].
      * constructor.
    + rewrite map_app. apply NoDup_app; [apply (ds_ids _ _ K)|simpl; repeat constructor; auto|].
      intros i I1 [I2|[]]. apply in_map_iff in I1. destruct I1 as [k [<- I1]]. apply (ds_fresh_ok _ _ K) in I1. simpl in I2. lia.
    + intros d Hd. apply in_app_or in Hd. destruct Hd as [Hd|[<-|[]]]; [apply (ds_fresh_ok _ _ K) in Hd; lia|simpl; lia].
    + intros p id. rewrite (ds_attached _ _ K). split; intros [d [H1 [H2 H3]]]; exists d; split; auto; [apply in_or_app; auto|].
      apply in_app_or in H1. destruct H1 as [H1|[<-|[]]]; auto. destruct H3.
    + apply (ds_att_once _ _ K).
  - intros V d c Hd Hc. cbn [ds_list] in Hd. apply in_app_or in Hd. destruct Hd as [Hd|[<-|[]]]; [apply (V d); auto|destruct Hc].
Qed.

Lemma forget_In : forall d at_ p id, In (p, id) (forget d at_) <-> In (p, id) at_ /\ ~ (id = dm_id d /\ In p (dm_elems d)).
Proof.
  intros d at_ p id. unfold forget. revert at_. induction (dm_elems d) as [|q l IH]; intros at_; cbn [fold_left].
  - simpl. tauto.
  - rewrite IH, detach_In. simpl. split.
    + intros [[H1 H2] H3]. split; auto. intros [-> [->|C]]; [destruct H2; congruence|auto].
    + intros [H1 H2]. split; [split; auto|tauto]. destruct (pos_eq_dec p q) as [->|]; auto. destruct (Nat.eq_dec id (dm_id d)) as [->|]; auto.
      destruct H2. auto.
Qed.

Lemma forget_NoDup : forall d at_, NoDup at_ -> NoDup (forget d at_).
Proof. intros d. unfold forget. induction (dm_elems d); intros at_ H; cbn [fold_left]; auto. apply IHl. apply NoDup_filter. auto. Qed.

Lemma ds_delete_ok : forall y n s b s', domains_ok y s -> ds_delete n s = (b, s') -> domains_ok y s' /\ (all_valid s -> all_valid s').
Proof.
  intros y n s b s' K H. unfold ds_delete in H. destruct (ds_find n s) as [d|] eqn:E; inversion H; subst; auto.
  destruct (ds_find_split n s d E) as [l1 [l2 [E1 [E2 E3]]]]. rewrite E1, drop_domain_split by auto.
  assert (forall k, In k (l1 ++ l2) -> In k (ds_list s)) as I1.
  { intros k. rewrite E1, !in_app_iff. simpl. intuition. }
  assert (NoDup (map dm_id (l1 ++ d :: l2))) as N by (rewrite <- E1; apply (ds_ids _ _ K)).
  rewrite map_app in N. cbn [map] in N. pose proof (NoDup_remove_1 _ _ _ N) as N1. apply NoDup_remove_2 in N. rewrite <- map_app in N, N1.
  split.
  - constructor; cbn [ds_list ds_att ds_fresh]; auto.
    + intros k Hk. apply (ds_domain _ _ K). auto.
    + intros k Hk. apply (ds_fresh_ok _ _ K). auto.
    + intros p id. rewrite forget_In, (ds_attached _ _ K). split.
      * intros [[k [H1 [H2 H3]]] H4]. exists k. split; auto. rewrite E1 in H1. apply in_app_or in H1.
        destruct H1 as [H1|[<-|H1]]; [apply in_or_app; auto|destruct H4; auto|apply in_or_app; auto].
      * intros [k [H1 [H2 H3]]]. split; [exists k; auto|]. intros [C _]. apply N. rewrite <- C, <- H2. apply in_map. auto.
    + apply forget_NoDup. apply (ds_att_once _ _ K).
  - intros V k c Hk. cbn [ds_list] in Hk. apply V. auto.
Qed.

Lemma ds_delete_all_ok : forall y s, domains_ok y s -> domains_ok y (ds_delete_all s) /\ all_valid (ds_delete_all s).
Proof.
  intros y s K. split; [|intros d c []].
  assert (forall l at_ p id, In (p, id) (fold_left (fun acc d => forget d acc) l at_) <->
    In (p, id) at_ /\ forall d, In d l -> ~ (id = dm_id d /\ In p (dm_elems d))) as G.
  { induction l as [|d l IH]; intros at_ p id; cbn [fold_left].
    - split; [intros H; split; auto; intros ? []|tauto].
    - rewrite IH, forget_In. split.
      + intros [[H1 H2] H3]. split; auto. intros k [<-|Hk]; auto.
      + intros [H1 H2]. split; [split; auto; apply H2; simpl; auto|]. intros k Hk. apply H2. simpl. auto. }
  constructor; cbn [ds_delete_all ds_list ds_att ds_fresh].
  - intros d [].
  - constructor.
  - intros d [].
  - intros p id. rewrite G. split.
    + intros [H1 H2]. apply (ds_attached _ _ K) in H1. destruct H1 as [d [X1 [X2 X3]]]. destruct (H2 d); [rewrite <- in_rev; auto|auto].
    + intros [d [[] _]].
  - assert (forall l at_, NoDup at_ -> NoDup (fold_left (fun acc d => forget d acc) l at_)) as G2.
    { induction l; intros; cbn [fold_left]; auto. apply IHl. apply forget_NoDup. auto. }
    apply G2. apply (ds_att_once _ _ K).
Qed.

Lemma ds_rename_ok : forall y n m s b s', domains_ok y s -> ds_rename n m s = (b, s') -> domains_ok y s' /\ (all_valid s -> all_valid s').
Proof.
  intros y n m s b s' K H. unfold ds_rename in H. destruct (ds_find n s) as [d|] eqn:E; [|inversion H; subst; auto].
  destruct (existsb _ (ds_list s)); [inversion H; subst; auto|].
  destruct (ds_find_split n s d E) as [l1 [l2 [E1 [E2 E3]]]]. rewrite E1, upd_domain_split in H by auto. cbn [obind fst snd] in H. inversion H; subst.
  assert (In d (ds_list s)) as Id by (rewrite E1; apply in_or_app; simpl; auto). split.
  - apply (replace_domain_ok y s l1 d l2); auto.
    + destruct (ds_domain _ _ K d Id). constructor; auto.
    + intros p. apply (ds_link y s d K Id).
    + tauto.
    + apply (ds_att_once _ _ K).
  - apply (replace_all_valid s l1 d l2); auto.
Qed.

Lemma ds_set_aware_ok : forall y n a s, domains_ok y s ->
  exists b s', ds_set_aware n a s = Ok (b, s') /\ domains_ok y s' /\ (all_valid s -> all_valid s').
Proof.
  intros y n a s K. apply ds_on_ok; auto. intros d Hd Kd. exists true, (with_aware d a). split; auto. split; [destruct Kd; constructor; auto|].
  split; [repeat split|]. auto.
Qed.

Lemma ds_create_config_ok : forall y n c main s, structure_ok y -> List.length main = footprint (sy_root y) -> domains_ok y s ->
  exists b s', ds_create_config y n c main s = Ok (b, s') /\ domains_ok y s' /\ (all_valid s -> all_valid s').
Proof.
  intros y n c main s Hs Lm K. apply ds_on_ok; auto. intros d Hd Kd.
  destruct (dm_create_config_ok y c main d Hs Lm Kd) as [b [d' [E [_ [H1 H2]]]]]. exists b, d'. split; auto. destruct b.
  - destruct (H2 eq_refl) as [A1 [A2 [_ [_ [_ [k [A3 [A4 [A5 [A6 _]]]]]]]]]]. split; auto. split; auto.
    intros V j Hj. rewrite A3 in Hj. apply in_app_or in Hj. destruct Hj as [Hj|[<-|[]]]; auto.
  - rewrite (H1 eq_refl). split; auto. split; [repeat split|]. auto.
Qed.

Lemma dm_delete_config_ok : forall y n d b d', domain_ok y d -> dm_delete_config n d = (b, d') ->
  domain_ok y d' /\ same_shape d d' /\ (forall c, In c (dm_configs d') -> In c (dm_configs d)).
Proof.
  intros y n d b d' K H. unfold dm_delete_config in H. destruct (dm_find n d) as [c|] eqn:E; [|inversion H; subst; split; [auto|split; [repeat split|auto]]].
  destruct (dm_find_split n d c E) as [l1 [l2 [E1 [E2 E3]]]].
  assert (dm_configs (if is_last d c then with_last d None else d) = dm_configs d) as Ec by (destruct (is_last d c); auto).
  rewrite Ec, E1, drop_config_split in H by auto. inversion H; subst.
  assert (forall k, In k (l1 ++ l2) -> In k (dm_configs d)) as I1.
  { intros k. rewrite E1, !in_app_iff. simpl. intuition. }
  assert (NoDup (map cf_id (l1 ++ c :: l2))) as N by (rewrite <- E1; apply (dk_ids _ _ K)).
  rewrite map_app in N. cbn [map] in N. pose proof (NoDup_remove_1 _ _ _ N) as N1. apply NoDup_remove_2 in N. rewrite <- map_app in N, N1.
  assert (same_shape d (with_configs (if is_last d c then with_last d None else d) (l1 ++ l2))) as Sh by (destruct (is_last d c); repeat split).
  split; [|split; auto]. apply (same_shape_ok y d); auto; cbn [dm_configs with_configs].
  - intros k Hk. apply (dk_configs _ _ K). auto.
  - intros k Hk. replace (dm_fresh _) with (dm_fresh d) by (destruct (is_last d c); auto). apply (dk_fresh _ _ K). auto.
  - intros i Hi. unfold is_last in Hi. destruct (dm_last d) as [j|] eqn:El; cbn [dm_last with_configs] in Hi.
    + destruct (Nat.eqb_spec j (cf_id c)); cbn [dm_last with_configs with_last] in Hi; [discriminate|].
      destruct (dk_last _ _ K i) as [k [I2 I3]]; auto. exists k. split; auto. rewrite E1 in I2. apply in_app_or in I2.
      destruct I2 as [I2|[<-|I2]]; [apply in_or_app; auto| |apply in_or_app; auto]. rewrite El in Hi. inversion Hi. congruence.
    + congruence.
Qed.

Lemma ds_delete_config_ok : forall y n c s, domains_ok y s ->
  exists b s', ds_delete_config n c s = Ok (b, s') /\ domains_ok y s' /\ (all_valid s -> all_valid s').
Proof.
  intros y n c s K. apply ds_on_ok; auto. intros d Hd Kd. destruct (dm_delete_config c d) as [b d'] eqn:E. exists b, d'. split; auto.
  destruct (dm_delete_config_ok y c d b d' Kd E) as [A1 [A2 A3]]. auto.
Qed.

Lemma dm_rename_config_ok : forall y n m d b d', domain_ok y d -> dm_rename_config n m d = (b, d') ->
  domain_ok y d' /\ same_shape d d' /\ ((forall c, In c (dm_configs d) -> config_valid c) -> forall c, In c (dm_configs d') -> config_valid c).
Proof.
  intros y n m d b d' K H. unfold dm_rename_config in H.
  assert (domain_ok y d /\ same_shape d d /\ ((forall c, In c (dm_configs d) -> config_valid c) -> forall c, In c (dm_configs d) -> config_valid c)) as R
    by (split; [auto|split; [repeat split|auto]]).
  destruct (dm_find n d) as [c|] eqn:E; [|inversion H; subst; auto].
  destruct (existsb _ (dm_configs d)); [inversion H; subst; auto|].
  destruct (dm_find_split n d c E) as [l1 [l2 [E1 [E2 E3]]]]. rewrite E1, upd_config_split in H by auto. cbn [obind fst snd] in H. inversion H; subst.
  set (c' := Config (cf_id c) m (cf_rule c) (cf_areas c)) in *.
  split; [|split; [repeat split|]].
  - apply (replace_config_ok y d l1 c l2 c'); auto; [|repeat split].
    apply (config_same_areas _ _ c); auto. apply (dk_configs _ _ K). rewrite E1. apply in_or_app. simpl. auto.
  - apply (replace_valid d (with_configs d (l1 ++ c' :: l2)) l1 c c' l2); auto.
Qed.

Lemma ds_rename_config_ok : forall y n c m s, domains_ok y s ->
  exists b s', ds_rename_config n c m s = Ok (b, s') /\ domains_ok y s' /\ (all_valid s -> all_valid s').
Proof.
  intros y n c m s K. apply ds_on_ok; auto. intros d Hd Kd. destruct (dm_rename_config c m d) as [b d'] eqn:E. exists b, d'. split; auto.
  destruct (dm_rename_config_ok y c m d b d' Kd E) as [A1 [A2 A3]]. auto.
Qed.

(** Commands on a configuration. *)
Lemma ds_on_config_ok : forall y n k (f : config -> outcome (bool * config)) s, domains_ok y s ->
  (forall l c, config_ok (sy_root y) l c -> exists b c', f c = Ok (b, c') /\ config_ok (sy_root y) l c' /\ cf_id c' = cf_id c
     /\ (config_valid c -> config_valid c')) ->
  exists b s', ds_on n (dm_on_config k f) s = Ok (b, s') /\ domains_ok y s' /\ (all_valid s -> all_valid s').
Proof.
  intros y n k f s K Hf. apply ds_on_ok; auto. intros d Hd Kd.
  destruct (dm_on_config_ok y k f (fun c _ c' => config_valid c -> config_valid c') d Kd) as [b [d' [E [A1 [A2 [_ [_ [_ [A3 A4]]]]]]]]].
  { intros c Hc. destruct (Hf _ c Hc) as [b [c' [X1 [X2 [X3 X4]]]]]. exists b, c'. auto. }
  exists b, d'. split; auto. split; auto. split; auto. destruct (dm_find k d) as [c|] eqn:Ek.
  - destruct (A4 c eq_refl) as [l1 [l2 [c' [B1 [_ [B2 [_ [_ B3]]]]]]]]. apply (replace_valid d d' l1 c c' l2); auto.
  - destruct A3 as [_ ->]; auto. apply dm_find_None. auto.
Qed.

Lemma ds_save_ok : forall y n c main s, structure_ok y -> List.length main = footprint (sy_root y) -> domains_ok y s ->
  exists b s', ds_save y n c main s = Ok (b, s') /\ domains_ok y s' /\ (all_valid s -> all_valid s').
Proof.
  intros y n c main s Hs Lm K. apply ds_on_config_ok; auto. intros l k Hk. destruct (cf_save_spec y l main k Hs Hk Lm) as [k' [E [A1 A2]]].
  exists true, k'. rewrite E. split; auto. split; auto. split; [apply A2|]. apply (saved_valid y main); auto.
Qed.

Lemma ds_set_sequence_ok : forall y n c paths s, domains_ok y s ->
  exists b s', ds_set_sequence y n c paths s = Ok (b, s') /\ domains_ok y s' /\ (all_valid s -> all_valid s').
Proof.
  intros y n c paths s K. apply ds_on_config_ok; auto. intros l k Hk. destruct (cf_set_sequence y paths k) as [b k'] eqn:E. exists b, k'.
  destruct (cf_set_sequence_ok y l paths k b k' Hk E) as [A1 [A2 [A3 [A4 A5]]]]. split; auto. split; auto. split; auto. apply perm_valid. auto.
Qed.

Lemma ds_set_rule_ok : forall y cs n c text s, domains_ok y s ->
  (forall old, exists r, set_application_rule cs text old = Ok r) ->
  exists b s', ds_set_rule cs n c text s = Ok (b, s') /\ domains_ok y s' /\ (all_valid s -> all_valid s').
Proof.
  intros y cs n c text s K T. apply ds_on_config_ok; auto. intros l k Hk. destruct (T (cf_rule k)) as [[b r] E]. rewrite E. cbn [obind fst snd].
  exists b, (with_rule k r). repeat (split; auto).
Qed.

Lemma ds_clear_rule_ok : forall y n c s, domains_ok y s ->
  exists b s', ds_clear_rule n c s = Ok (b, s') /\ domains_ok y s' /\ (all_valid s -> all_valid s').
Proof.
  intros y n c s K. apply ds_on_config_ok; auto. intros l k Hk.
  exists true, (with_rule k clear_application_rule). repeat (split; auto).
Qed.

(** Restoring. *)
Lemma dm_restore_spec : forall y n sync d main tr c, structure_ok y -> domain_ok y d -> List.length main = footprint (sy_root y) ->
  dm_find n d = Some c ->
  exists main' evs, dm_restore y n sync d main tr
     = Ok (forallb ev_ok evs, with_last d (Some (cf_id c)), main', map ev_syncer (filter (fun v => negb (ev_ok v)) evs), tr ++ evs)
    /\ written (sy_root y) c main main'
    /\ (sync = false -> evs = [])
    /\ (sync = true -> dm_aware d = true -> Forall2 (sync_event y) (area_syncs y (cf_areas c)) evs)
    /\ (sync = true -> dm_aware d = false -> map ev_syncer evs = dm_syncers d /\ Forall (fun v => ev_mem v = main') evs).
Proof.
  intros y n sync d main tr c Hs K Lm E. unfold dm_restore. rewrite E.
  destruct (cf_restore_spec y (sync && dm_aware d) (dm_elems d) c main tr Hs (dk_separate _ _ K) (dk_configs _ _ K c (dm_find_In _ _ _ E)) Lm)
    as [main' [evs [R1 [R2 [R3 _]]]]].
  rewrite R1. cbn [obind]. destruct sync, (dm_aware d) eqn:Aw; cbn [andb negb] in *.
  - exists main', evs. split; auto. split; auto. split; [discriminate|]. split; auto. discriminate.
  - inversion R3; subst evs. rewrite app_nil_r in *. destruct (sync_set y (dm_syncers (with_last d (Some (cf_id c)))) main' tr) as [[ok2 errs2] tr2] eqn:Es.
    destruct (sync_set_spec _ _ _ _ _ _ _ Es) as [evs1 [V1 [V2 [V3 [V4 [V5 V6]]]]]]. exists main', evs1. rewrite V1, V4, V5. cbn [forallb andb filter map app].
    split; auto. split; auto. split; [discriminate|]. split; [discriminate|]. auto.
  - inversion R3; subst evs. exists main', []. split; auto. split; auto. split; auto. split; discriminate.
  - inversion R3; subst evs. exists main', []. split; auto. split; auto. split; auto. split; discriminate.
Qed.

Lemma ds_restore_spec : forall y n k sync s main tr, structure_ok y -> domains_ok y s -> List.length main = footprint (sy_root y) ->
  exists b s' main' errs tr', ds_restore y n k sync s main tr = Ok (b, s', main', errs, tr') /\ domains_ok y s' /\ (all_valid s -> all_valid s')
    /\ List.length main' = footprint (sy_root y)
    /\ (ds_find n s = None -> b = false /\ s' = s /\ main' = main /\ errs = [] /\ tr' = tr)
    /\ (forall d, ds_find n s = Some d -> dm_find k d = None -> b = false /\ s' = s /\ main' = main /\ errs = [] /\ tr' = tr)
    /\ (forall d c, ds_find n s = Some d -> dm_find k d = Some c ->
         exists l1 l2 evs, ds_list s = l1 ++ d :: l2 /\ s' = Domains (l1 ++ with_last d (Some (cf_id c)) :: l2) (ds_att s) (ds_fresh s)
         /\ b = forallb ev_ok evs /\ errs = map ev_syncer (filter (fun v => negb (ev_ok v)) evs) /\ tr' = tr ++ evs
         /\ written (sy_root y) c main main'
         /\ (sync = false -> evs = [])
         /\ (sync = true -> dm_aware d = true -> Forall2 (sync_event y) (area_syncs y (cf_areas c)) evs)
         /\ (sync = true -> dm_aware d = false -> map ev_syncer evs = dm_syncers d /\ Forall (fun v => ev_mem v = main') evs)).
Proof.
  intros y n k sync s main tr Hs K Lm. unfold ds_restore. destruct (ds_find n s) as [d|] eqn:E.
  2:{ exists false, s, main, [], tr. split; auto. split; auto. split; auto. split; auto. split; auto. split; discriminate. }
  assert (In d (ds_list s)) as Id by (eapply ds_find_In; eauto).
  destruct (ds_find_split n s d E) as [l1 [l2 [E1 [E2 E3]]]]. rewrite E1, upd_domain_split by auto.
  destruct (dm_find k d) as [c|] eqn:Ek.
  - destruct (dm_restore_spec y k sync d main tr c Hs (ds_domain _ _ K d Id) Lm Ek) as [main' [evs [R1 [R2 R3]]]]. rewrite R1. cbn [obind fst snd].
    do 5 eexists. split; [reflexivity|]. split; [|split; [|split; [|split; [|split]]]].
    + apply (replace_domain_ok y s l1 d l2); auto.
      * destruct (ds_domain _ _ K d Id). constructor; auto. cbn [dm_last with_last dm_configs]. intros i Hi. inversion Hi; subst. exists c. split; auto. eapply dm_find_In; eauto.
      * intros p. apply (ds_link y s d K Id).
      * tauto.
      * apply (ds_att_once _ _ K).
    + apply (replace_all_valid s l1 d l2); auto.
    + destruct R2. lia.
    + discriminate.
    + intros d0 H0. inversion H0; subst. congruence.
    + intros d0 c0 H0 H1. inversion H0; subst d0. rewrite Ek in H1. inversion H1; subst c0. exists l1, l2, evs. auto 10.
  - unfold dm_restore. rewrite Ek. cbn [obind fst snd]. do 5 eexists. split; [reflexivity|].
    assert (Domains (l1 ++ d :: l2) (ds_att s) (ds_fresh s) = s) as -> by (rewrite <- E1; destruct s; auto).
    split; auto. split; auto. split; auto. split; [discriminate|]. split; auto. intros d0 c0 H0 H1. inversion H0; subst d0. congruence.
Qed.

Lemma ds_apply_ok : forall y cs force ss s main tr s' main' tr', structure_ok y -> domains_ok y s -> List.length main = footprint (sy_root y) ->
  StronglySorted lt ss -> ds_apply y cs force ss s main tr = Ok (s', main', tr') ->
  domains_ok y s' /\ (all_valid s -> all_valid s') /\ List.length main' = footprint (sy_root y).
Proof.
  intros y cs force ss s main tr s' main' tr' Hs K Lm So H.
  destruct (ds_apply_spec y cs force ss s main tr Hs K Lm So) as [mid [m2 [col [e1 [e2 [E [W1 [W2 _]]]]]]]]. rewrite E in H. inversion H; subst.
  assert (forall d, dm_id (applied cs force d) = dm_id d /\ dm_elems (applied cs force d) = dm_elems d /\ dm_configs (applied cs force d) = dm_configs d) as Ap.
  { intros d. unfold applied. destruct (dm_applicable cs d); auto. destruct force; auto. }
  split; [|split].
  - constructor; cbn [ds_list ds_att ds_fresh].
    + intros d Hd. apply in_map_iff in Hd. destruct Hd as [k [<- Hk]]. apply applied_ok. apply (ds_domain _ _ K). auto.
    + rewrite map_map. erewrite map_ext; [apply (ds_ids _ _ K)|]. intros d. apply Ap.
    + intros d Hd. apply in_map_iff in Hd. destruct Hd as [k [<- Hk]]. destruct (Ap k) as [-> _]. apply (ds_fresh_ok _ _ K). auto.
    + intros p id. rewrite (ds_attached _ _ K). split.
      * intros [d [H1 [H2 H3]]]. exists (applied cs force d). destruct (Ap d) as [A1 [A2 _]]. rewrite A1, A2. split; auto. apply in_map. auto.
      * intros [d [H1 [H2 H3]]]. apply in_map_iff in H1. destruct H1 as [k [<- H1]]. destruct (Ap k) as [A1 [A2 _]]. rewrite A1 in H2. rewrite A2 in H3. exists k. auto.
    + apply (ds_att_once _ _ K).
  - intros V d c Hd Hc. cbn [ds_list] in Hd. apply in_map_iff in Hd. destruct Hd as [k [<- Hk]]. destruct (Ap k) as [_ [_ A3]]. rewrite A3 in Hc. apply (V k); auto.
  - apply written_all_length in W1. apply written_all_length in W2. lia.
Qed.

(** Validation. *)
Lemma ds_validate_ok : forall y main s, structure_ok y -> domains_ok y s -> List.length main = footprint (sy_root y) ->
  exists s', ds_validate y main s = Ok s' /\ domains_ok y s' /\ all_valid s'
    /\ ds_att s' = ds_att s
    /\ Forall2 (fun d d' => dm_id d' = dm_id d /\ dm_name d' = dm_name d /\ dm_elems d' = dm_elems d /\ dm_last d' = dm_last d /\ dm_aware d' = dm_aware d
         /\ Forall2 (fun c c' => cf_id c' = cf_id c /\ cf_name c' = cf_name c /\ cf_rule c' = cf_rule c
            /\ Forall2 (fun a a' => ar_pos a' = ar_pos a /\ area_ok (sy_root y) a' /\ (ar_valid a = true -> a' = a)
                /\ (ar_valid a = false -> forall i, owns (sy_root y) (ar_pos a) i -> abit (sy_root y) a' i = mbit main i)) (cf_areas c) (cf_areas c'))
              (dm_configs d) (dm_configs d')) (ds_list s) (ds_list s').
Proof.
  intros y main s Hs K Lm. unfold ds_validate.
  set (RC := fun c c' : config => cf_id c' = cf_id c /\ cf_name c' = cf_name c /\ cf_rule c' = cf_rule c
            /\ Forall2 (fun a a' => ar_pos a' = ar_pos a /\ area_ok (sy_root y) a' /\ (ar_valid a = true -> a' = a)
                /\ (ar_valid a = false -> forall i, owns (sy_root y) (ar_pos a) i -> abit (sy_root y) a' i = mbit main i)) (cf_areas c) (cf_areas c')).
  destruct (omap_list_ok _ _ (dm_validate y main) (fun d d' => domain_ok y d' /\ (forall c, In c (dm_configs d') -> config_valid c) /\
        (dm_id d' = dm_id d /\ dm_name d' = dm_name d /\ dm_elems d' = dm_elems d /\ dm_last d' = dm_last d /\ dm_aware d' = dm_aware d
         /\ Forall2 RC (dm_configs d) (dm_configs d'))) (ds_list s)) as [l' [E F]].
  { intros d Hd. pose proof (ds_domain _ _ K d Hd) as Kd. unfold dm_validate.
    destruct (omap_list_ok _ _ (cf_validate y main) (fun c c' => config_ok (sy_root y) (dm_elems d) c' /\ config_valid c' /\ RC c c') (dm_configs d)) as [cl [E F]].
    { intros c Hc. destruct (cf_validate_spec y (dm_elems d) main c Hs (dk_configs _ _ Kd c Hc) Lm) as [c' [V1 [V2 [V3 [V4 [V5 [V6 [_ V7]]]]]]]].
      exists c'. split; auto. split; auto. split; auto. unfold RC. auto. }
    rewrite E. unfold omap. cbn [obind]. eexists. split; [reflexivity|]. cbn [dm_configs with_configs dm_id dm_name dm_elems dm_last dm_aware].
    assert (map cf_id cl = map cf_id (dm_configs d)) as Eids.
    { apply Forall2_map_eq. eapply Forall2_impl2; [|exact F]. intros a b _ [_ [_ [H _]]]. auto. }
    destruct (domain_ok_ids y d (with_configs d cl) Kd Eids eq_refl eq_refl) as [I1 [I2 I3]].
    split; [|split].
    - apply (same_shape_ok y d); auto; [repeat split|]. cbn [dm_configs with_configs]. intros c' Hc'. destruct (Forall2_in_r _ _ _ _ _ c' F Hc') as [c [_ H]]. tauto.
    - intros c' Hc'. destruct (Forall2_in_r _ _ _ _ _ c' F Hc') as [c [_ H]]. tauto.
    - repeat (split; auto). eapply Forall2_impl2; [|exact F]. simpl. tauto. }
  rewrite E. unfold omap. cbn [obind]. eexists. split; [reflexivity|]. cbn [ds_list ds_att].
  assert (forall d', In d' l' -> exists d, In d (ds_list s) /\ dm_id d' = dm_id d /\ dm_elems d' = dm_elems d /\ domain_ok y d' /\ (forall c, In c (dm_configs d') -> config_valid c)) as B.
  { intros d' Hd'. destruct (Forall2_in_r _ _ _ _ _ d' F Hd') as [d [I [H1 [H2 [H3 [_ [H4 _]]]]]]]. exists d. auto 10. }
  assert (map dm_id l' = map dm_id (ds_list s)) as Em.
  { apply Forall2_map_eq. eapply Forall2_impl2; [|exact F]. intros a b _ [_ [_ [H _]]]. auto. }
  split; [|split; [|split; [auto|]]].
  - constructor; cbn [ds_list ds_att ds_fresh].
    + intros d' Hd'. destruct (B d' Hd') as [d H]. tauto.
    + rewrite Em. apply (ds_ids _ _ K).
    + intros d' Hd'. destruct (B d' Hd') as [d [H1 [H2 _]]]. rewrite H2. apply (ds_fresh_ok _ _ K). auto.
    + intros p id. rewrite (ds_attached _ _ K). split.
      * intros [d [H1 [H2 H3]]]. destruct (Forall2_in_l _ _ _ _ _ d F H1) as [d' [I [_ [_ [X1 [_ [X2 _]]]]]]]. exists d'. rewrite X1, X2. auto.
      * intros [d' [H1 [H2 H3]]]. destruct (B d' H1) as [d [X1 [X2 [X3 _]]]]. rewrite X2 in H2. rewrite X3 in H3. exists d. auto.
    + apply (ds_att_once _ _ K).
  - intros d c Hd Hc. cbn [ds_list] in Hd. destruct (B d Hd) as [k H]. apply H. auto.
  - eapply Forall2_impl2; [|exact F]. unfold RC. simpl. tauto.
Qed.
