(** Proofs about the settings recorded by configurations. *)
From Coq Require Import List Arith ZArith Bool Permutation Sorted Lia Ascii String.
From Verif Require Import Base BaseProofs TextProofs BlackboardModel CriterionModel RuleModel RuleSpec RuleProofs TreeModel TreeSpec TreeProofs MemSpec MemProofs SyncModel SyncProofs DomainModel DomainSpec
  AreaProofs DomainProofs DomainInv DomainApply DomainsInv MgrModel MgrSpec MgrProofs MgrFlow MgrSkel ApplySpec ApplyProofs ValueSpec ValueProofs ReadProofs ApplyMore ConfigSpec.
Import ListNotations.
Local Open Scope nat_scope.

(** ** What a name designates *)

Lemma find_mid_other : forall A (f : A -> bool) l1 x l2 x', f x = false -> f x' = false -> find f (l1 ++ x' :: l2) = find f (l1 ++ x :: l2).
Proof. intros A f l1 x l2 x' H H'. induction l1 as [|k l1 IH]; simpl; [rewrite H, H'; auto|]. destruct (f k); auto. Qed.

Lemma find_mid_here : forall A (f : A -> bool) l1 x l2, (forall k, In k l1 -> f k = false) -> f x = true -> find f (l1 ++ x :: l2) = Some x.
Proof. intros A f l1 x l2 H Hx. induction l1 as [|k l1 IH]; simpl; [rewrite Hx; auto|]. rewrite H by (simpl; auto). apply IH. intros; apply H; simpl; auto. Qed.

Lemma str_neqb : forall a b : str, a <> b -> str_eqb a b = false.
Proof. intros a b H. destruct (str_eqb a b) eqn:E; auto. apply str_eqb_eq in E. contradiction. Qed.

(** A change of one domain, by name. *)
Lemma ds_find_mid : forall s l1 d l2 d' at_ fr n dn k, ds_list s = l1 ++ d :: l2 -> ds_find n s = Some d -> (forall k, In k l1 -> dm_path_name k <> n) ->
  ds_find dn s = Some k -> (n <> dn -> dm_path_name d' <> dn) ->
  (n <> dn -> ds_find dn (Domains (l1 ++ d' :: l2) at_ fr) = Some k) /\ (n = dn -> dm_path_name d' = dn -> k = d /\ ds_find dn (Domains (l1 ++ d' :: l2) at_ fr) = Some d').
Proof.
  intros s l1 d l2 d' at_ fr n dn k E F N Fk H. unfold ds_find in *. cbn [ds_list]. pose proof (find_some _ _ F) as [_ Pd]. simpl in Pd. apply str_eqb_eq in Pd. split.
  - intros D. rewrite <- Fk, E. apply find_mid_other; apply str_neqb; auto. congruence.
  - intros -> P. split; [congruence|]. apply find_mid_here; [|apply str_eqb_eq; auto]. intros x Hx. apply str_neqb. auto.
Qed.

Lemma dm_find_mid : forall d l1 c l2 c' d' n cn k, dm_configs d = l1 ++ c :: l2 -> dm_find n d = Some c -> (forall k, In k l1 -> cf_path_name k <> n) ->
  dm_find cn d = Some k -> dm_configs d' = l1 ++ c' :: l2 -> (n <> cn -> cf_path_name c' <> cn) ->
  (n <> cn -> dm_find cn d' = Some k) /\ (n = cn -> cf_path_name c' = cn -> k = c /\ dm_find cn d' = Some c').
Proof.
  intros d l1 c l2 c' d' n cn k E F N Fk E' H. unfold dm_find in *. rewrite E'. pose proof (find_some _ _ F) as [_ Pd]. simpl in Pd. apply str_eqb_eq in Pd. split.
  - intros D. rewrite <- Fk, E. apply find_mid_other; apply str_neqb; auto. congruence.
  - intros -> P. split; [congruence|]. apply find_mid_here; [|apply str_eqb_eq; auto]. intros x Hx. apply str_neqb. auto.
Qed.

Lemma find_drop : forall A (f g : A -> bool) (drop : list A -> list A), (forall k, f k = true -> g k = false) -> drop [] = [] ->
  (forall k r, drop (k :: r) = if f k then r else k :: drop r) -> forall l, find g (drop l) = find g l.
Proof. intros A f g drop H D0 D1 l. induction l as [|k l IH]; [rewrite D0; auto|]. rewrite D1. simpl. destruct (f k) eqn:E; [rewrite (H k E); auto|]. simpl. rewrite IH. auto. Qed.

Lemma split_unique : forall A B (g : A -> B) l1 x l2 k1 k2, NoDup (map g (l1 ++ x :: l2)) -> l1 ++ x :: l2 = k1 ++ x :: k2 -> l1 = k1.
Proof.
  intros A B g l1. induction l1 as [|a l1 IH]; intros x l2 k1 k2 N E; destruct k1 as [|b k1]; auto.
  - inversion E; subst. simpl in N. inversion N; subst. exfalso. apply H1. rewrite map_app. apply in_or_app. simpl. auto.
  - inversion E; subst. simpl in N. inversion N; subst. exfalso. apply H1. rewrite map_app. apply in_or_app. simpl. auto.
  - inversion E; subst. simpl in N. inversion N; subst. rewrite (IH x l2 k1 k2); auto.
Qed.

Definition designates (s : domains) (dn cn : str) (els : list (list nat)) (ars : list area) : Prop :=
  exists d c, ds_find dn s = Some d /\ dm_find cn d = Some c /\ dm_elems d = els /\ cf_areas c = ars.

Lemma designates_on : forall s dn cn els ars n f b s', designates s dn cn els ars -> ds_on n f s = Ok (b, s') ->
  (forall d b d', In d (ds_list s) -> f d = Ok (b, d') -> dm_name d' = dm_name d) ->
  (forall d b d' c, n = dn -> In d (ds_list s) -> f d = Ok (b, d') -> dm_find cn d = Some c -> dm_elems d' = dm_elems d /\ exists c', dm_find cn d' = Some c' /\ cf_areas c' = cf_areas c) ->
  designates s' dn cn els ars.
Proof.
  intros s dn cn els ars n f b s' [d [c [D1 [D2 [D3 D4]]]]] H Hn Hf. destruct (ds_on_cases _ _ _ _ _ H) as [[_ [_ ->]]|[l1 [d0 [l2 [d' [E1 [E2 [E3 [E4 ->]]]]]]]]]; [exists d, c; auto|].
  assert (In d0 (ds_list s)) as I0 by (apply (ds_find_In _ _ _ E1)). pose proof (Hn _ _ _ I0 E4) as Nm.
  assert (dm_path_name d' = n) as Pn. { unfold dm_path_name. rewrite Nm. apply find_some in E1. destruct E1 as [_ E1]. apply str_eqb_eq in E1. exact E1. }
  destruct (ds_find_mid s l1 d0 l2 d' (ds_att s) (ds_fresh s) n dn d E2 E1 E3 D1) as [F1 F2]; [congruence|].
  destruct (list_eq_dec ascii_dec n dn) as [->|D].
  - destruct (F2 eq_refl Pn) as [-> F3]. destruct (Hf d0 b d' c eq_refl I0 E4 D2) as [G1 [c' [G2 G3]]]. exists d', c'. rewrite F3, G1, G3. auto.
  - exists d, c. rewrite (F1 D). auto.
Qed.

Lemma designates_on_att : forall s dn cn els ars n f b s', designates s dn cn els ars -> ds_on_att n f s = Ok (b, s') -> n <> dn ->
  (forall d b d' at', In d (ds_list s) -> f d (ds_att s) = Ok (b, (d', at')) -> dm_name d' = dm_name d) -> designates s' dn cn els ars.
Proof.
  intros s dn cn els ars n f b s' [d [c [D1 [D2 [D3 D4]]]]] H D Hn. destruct (ds_on_att_cases _ _ _ _ _ H) as [[_ [_ ->]]|[l1 [d0 [l2 [d' [at' [E1 [E2 [E3 [E4 ->]]]]]]]]]]; [exists d, c; auto|].
  assert (In d0 (ds_list s)) as I0 by (apply (ds_find_In _ _ _ E1)). pose proof (Hn _ _ _ _ I0 E4) as Nm.
  assert (dm_path_name d' = n) as Pn. { unfold dm_path_name. rewrite Nm. apply find_some in E1. destruct E1 as [_ E1]. apply str_eqb_eq in E1. exact E1. }
  destruct (ds_find_mid s l1 d0 l2 d' at' (ds_fresh s) n dn d E2 E1 E3 D1) as [F1 _]; [congruence|]. exists d, c. rewrite (F1 D). auto.
Qed.

(** A change of one configuration, by name, that keeps its name. *)
Lemma on_config_keeps : forall n f d b d' cn c, dm_on_config n f d = Ok (b, d') -> dm_find cn d = Some c ->
  (forall k b k', f k = Ok (b, k') -> cf_name k' = cf_name k) -> (n = cn -> forall b k', f c = Ok (b, k') -> cf_areas k' = cf_areas c) ->
  dm_elems d' = dm_elems d /\ exists c', dm_find cn d' = Some c' /\ cf_areas c' = cf_areas c.
Proof.
  intros n f d b d' cn c H F Hn Ha. destruct (dm_on_config_cases _ _ _ _ _ H) as [[_ [_ ->]]|[l1 [c0 [l2 [c' [E1 [E2 [E3 [E4 ->]]]]]]]]]; [split; auto; exists c; auto|].
  split; auto. assert (cf_path_name c' = n) as Pn. { unfold cf_path_name. rewrite (Hn _ _ _ E4). apply find_some in E1. destruct E1 as [_ E1]. apply str_eqb_eq in E1. exact E1. }
  destruct (dm_find_mid d l1 c0 l2 c' (with_configs d (l1 ++ c' :: l2)) n cn c E2 E1 E3 F eq_refl) as [F1 F2]; [congruence|].
  destruct (list_eq_dec ascii_dec n cn) as [->|D]; [|exists c; auto]. destruct (F2 eq_refl Pn) as [-> F3]. exists c'. split; auto. apply (Ha eq_refl _ _ E4).
Qed.

Lemma on_config_name : forall n f d b d', dm_on_config n f d = Ok (b, d') -> dm_name d' = dm_name d.
Proof. intros n f d b d' H. destruct (dm_on_config_cases _ _ _ _ _ H) as [[_ [_ ->]]|[l1 [c0 [l2 [c' [E1 [E2 [E3 [E4 ->]]]]]]]]]; auto. Qed.

Lemma designates_list : forall s s' dn cn els ars (g : domain -> domain), designates s dn cn els ars -> ds_list s' = map g (ds_list s) ->
  (forall d, dm_name (g d) = dm_name d /\ dm_elems (g d) = dm_elems d /\ dm_configs (g d) = dm_configs d) -> designates s' dn cn els ars.
Proof.
  intros s s' dn cn els ars g [d [c [D1 [D2 [D3 D4]]]]] E G. exists (g d), c. destruct (G d) as [G1 [G2 G3]]. unfold dm_find in *. rewrite G3, G2. split; auto.
  unfold ds_find in *. rewrite E. clear E D2 D3 D4. induction (ds_list s) as [|k l IH]; [discriminate|]. simpl in *. replace (dm_path_name (g k)) with (dm_path_name k).
  - destruct (str_eqb (dm_path_name k) dn); [inversion D1; auto|auto].
  - unfold dm_path_name. destruct (G k) as [-> _]. auto.
Qed.

Lemma shown_domain : forall d, dm_path_name d = shown (lit "ConfigurableDomain") (dm_name d).
Proof. intros d. unfold dm_path_name, shown. destruct (dm_name d); auto. Qed.
Lemma shown_config : forall c, cf_path_name c = shown (lit "Configuration") (cf_name c).
Proof. intros c. unfold cf_path_name, shown. destruct (cf_name c); auto. Qed.

Lemma step_designates : forall y m c b m' dn cn els ars, system_ok y -> mgr_ok y m -> spares dn cn c -> step y m c = Ok (b, m') ->
  designates (mg_doms m) dn cn els ars -> designates (mg_doms m') dn cn els ars.
Proof.
  intros y m c b m' dn cn els ars [Hst Os] [K [V L]] Sp H D.
  assert (forall k b0 m0, tuned m k = Ok (b0, m0) -> (k = Ok (b0, m0) -> designates (mg_doms m0) dn cn els ars) -> designates (mg_doms m0) dn cn els ars) as T.
  { intros k b0 m0 Ht G. destruct (tuned_inv _ _ _ _ Ht) as [[_ [_ ->]]|[_ Ek]]; auto. }
  assert (forall o b0 m0, on_doms m o = Ok (b0, m0) -> (forall s, o = Ok (b0, s) -> designates s dn cn els ars) -> designates (mg_doms m0) dn cn els ars) as O.
  { intros o b0 m0 Ho G. destruct (on_doms_inv _ _ _ _ Ho) as [s [E ->]]. cbn [mg_doms with_doms]. auto. }
  assert (forall force need m0, do_apply y force need m = Ok m0 -> designates (mg_doms m0) dn cn els ars) as Ap.
  { intros force need m0 Ea. apply do_apply_inv in Ea; [|auto|split; auto]. rewrite (proj1 Ea). eapply designates_list; [exact D|cbn [ds_list]; reflexivity|].
    intros d. destruct (applied_last (mg_crits m) force d) as [_ [A1 [_ [A2 [A3 _]]]]]. auto. }
  destruct c; cbn [spares] in Sp; cbn [step] in H.
  - apply (T _ _ _ H). intros G. apply set_live_inv in G. rewrite (proj1 G). auto.
  - unfold set_recorded in H. destruct (locate (sy_root y) path) as [p|]; [|inversion H; subst; auto].
    destruct (ds_find_blackboard dom conf p (mg_doms m)) as [[[d c] g]|]; [|inversion H; subst; auto].
    destruct (access_set _ _ _ _ _ _) as [[ok bb]| | |]; try discriminate. cbn [obind fst snd] in H.
    destruct (ds_edit dom conf g bb (mg_doms m)) as [[b1 s1]| | |] eqn:Ed; try discriminate. cbn [obind fst snd] in H.
    assert (designates s1 dn cn els ars) as E.
    { eapply designates_on; [exact D|exact Ed| |]; [intros d0 b0 d' _ Ec; apply (on_config_name _ _ _ _ _ Ec)|].
      intros d0 b0 d' c0 -> _ Ec Fc. eapply on_config_keeps; [exact Ec|exact Fc| |]; [intros k b2 k' E; inversion E; subst; auto|intros ->; destruct Sp; contradiction]. }
    destruct ok; [|inversion H; subst; auto]. destruct (is_last d c); [|inversion H; subst; auto]. apply set_live_inv in H. rewrite (proj1 H). auto.
  - unfold set_tuning in H. destruct (Bool.eqb on (mg_tuning m)); [inversion H; subst; auto|]. destruct (on && negb (mg_allowed m)); [inversion H; subst; auto|].
    destruct on; [inversion H; subst; auto|]. destruct (do_apply y true need m) as [m1| | |] eqn:Ea; try discriminate. cbn [obind] in H. inversion H; subst. apply (Ap _ _ _ Ea).
  - unfold set_autosync, do_sync in H. destruct (on && negb (mg_autosync m)); [|inversion H; subst; auto].
    destruct (mg_autosync m); [inversion H; subst; auto|]. destruct (sync_set _ _ _ _) as [[ok er] tr]. destruct ok; inversion H; subst; auto.
  - unfold do_sync in H. destruct (mg_autosync m); [inversion H; subst; auto|]. destruct (sync_set _ _ _ _) as [[ok er] tr]. inversion H; subst; auto.
  - inversion H; subst; auto.
  - inversion H; subst; auto.
  - apply (T _ _ _ H). intros G. apply (O _ _ _ G). intros s Es. inversion Es as [E0]. unfold ds_create in E0. destruct (ds_find name (mg_doms m)); inversion E0; subst; auto.
    destruct D as [d [c [D1 D2]]]. exists d, c. split; auto. unfold ds_find in *. cbn [ds_list]. clear - D1. induction (ds_list (mg_doms m)) as [|k l IH]; [discriminate|]. simpl in *. destruct (str_eqb _ _); auto.
  - apply (T _ _ _ H). intros G. apply (O _ _ _ G). intros s Es. inversion Es as [E0]. unfold ds_delete in E0. destruct (ds_find name (mg_doms m)); inversion E0; subst; auto.
    destruct D as [d1 [c [D1 D2]]]. exists d1, c. split; auto. unfold ds_find in *. cbn [ds_list]. rewrite <- D1. apply find_drop with (f := fun k => str_eqb (dm_path_name k) name); auto.
    intros k Hk. apply str_eqb_eq in Hk. apply str_neqb. congruence.
  - contradiction.
  - apply (O _ _ _ H). intros s Es. inversion Es as [E0]. unfold ds_rename in E0. destruct (ds_find name (mg_doms m)) as [d|] eqn:Ef; [|inversion E0; subst; auto].
    destruct (existsb _ _); [inversion E0; subst; auto|]. destruct (ds_find_split _ _ _ Ef) as [l1 [l2 [Q1 [Q2 Q3]]]]. rewrite Q1, upd_domain_split in E0 by auto. cbn [obind fst snd] in E0. inversion E0; subst.
    destruct D as [d1 [c [D1 D2]]]. destruct Sp as [S1 S2]. destruct (ds_find_mid (mg_doms m) l1 d l2 (with_name d new) (ds_att (mg_doms m)) (ds_fresh (mg_doms m)) _ dn d1 Q1 Ef Q3 D1) as [F1 _]; [intros _; rewrite shown_domain; exact S2|].
    exists d1, c. rewrite (F1 S1). auto.
  - apply (T _ _ _ H). intros G. apply (O _ _ _ G). intros s Es. eapply designates_on; [exact D|exact Es| |]; [intros d b1 d' _ E; inversion E; subst; auto|].
    intros d b1 d' c0 _ _ E F. inversion E; subst. split; auto. exists c0. auto.
  - apply (T _ _ _ H). intros G. apply (O _ _ _ G). intros s Es. assert (forall d b1 d', In d (ds_list (mg_doms m)) -> dm_create_config y conf (mg_main m) d = Ok (b1, d') ->
      dm_name d' = dm_name d /\ dm_elems d' = dm_elems d /\ exists r, dm_configs d' = dm_configs d ++ r) as Q.
    { intros d b1 d' Hd E. destruct (dm_create_config_ok y conf (mg_main m) d Hst L (ds_domain _ _ K d Hd)) as [b2 [d2 [E1 [_ [E2 E3]]]]]. rewrite E1 in E. inversion E; subst.
      destruct b1; [|rewrite (E2 eq_refl); split; auto; split; auto; exists []; rewrite app_nil_r; auto]. destruct (E3 eq_refl) as [_ [[_ [A1 _]] [A2 [_ [_ [c0 [A3 _]]]]]]]. eauto. }
    eapply designates_on; [exact D|exact Es| |]; [intros d b1 d' Hd E; apply (Q _ _ _ Hd E)|]. intros d b1 d' c0 _ Hd E F. destruct (Q _ _ _ Hd E) as [_ [Q2 [r Q3]]]. split; auto. exists c0. split; auto.
    unfold dm_find in *. rewrite Q3. clear - F. induction (dm_configs d) as [|k l IH]; [discriminate|]. simpl in *. destruct (str_eqb _ _); auto.
  - apply (T _ _ _ H). intros G. apply (O _ _ _ G). intros s Es. eapply designates_on; [exact D|exact Es| |].
    + intros d b1 d' _ E. inversion E as [E0]. unfold dm_delete_config in E0. destruct (dm_find conf d) as [k|]; [destruct (is_last d k)|]; inversion E0; auto.
    + intros d b1 d' c0 -> _ E F. inversion E as [E0]. unfold dm_delete_config in E0. destruct (dm_find conf d) as [k|] eqn:Fk; [|inversion E0; subst; split; auto; exists c0; auto].
      assert (dm_elems d' = dm_elems d /\ dm_configs d' = drop_config conf (dm_configs d)) as [X1 X2] by (destruct (is_last d k); inversion E0; auto). split; auto. exists c0. split; auto.
      unfold dm_find in *. rewrite X2, <- F. apply find_drop with (f := fun k => str_eqb (cf_path_name k) conf); auto.
      intros x Hx. apply str_eqb_eq in Hx. apply str_neqb. destruct Sp; [contradiction|congruence].
  - apply (O _ _ _ H). intros s Es. eapply designates_on; [exact D|exact Es| |].
    + intros d b1 d' _ E. inversion E as [E0]. unfold dm_rename_config in E0. destruct (dm_find conf d) as [k|]; [|inversion E0; auto]. destruct (existsb _ _); [inversion E0; auto|].
      destruct (upd_config _ _ _) as [[u l]| | |]; inversion E0; auto.
    + intros d b1 d' c0 -> _ E F. inversion E as [E0]. unfold dm_rename_config in E0. destruct (dm_find conf d) as [k|] eqn:Fk; [|inversion E0; subst; split; auto; exists c0; auto].
      destruct (existsb _ _); [inversion E0; subst; split; auto; exists c0; auto|]. destruct (dm_find_split _ _ _ Fk) as [l1 [l2 [Q1 [Q2 Q3]]]]. rewrite Q1, upd_config_split in E0 by auto.
      cbn [obind fst snd] in E0. inversion E0; subst. split; auto. exists c0. split; auto. destruct Sp as [S|[S1 S2]]; [contradiction|].
      refine (proj1 (dm_find_mid d l1 k l2 (Config (cf_id k) new (cf_rule k) (cf_areas k)) (with_configs d (l1 ++ Config (cf_id k) new (cf_rule k) (cf_areas k) :: l2)) _ cn c0 Q1 Fk Q3 F eq_refl _) S1). intros _. rewrite shown_config. exact S2.
  - apply (T _ _ _ H). intros G. clear H.
    destruct (ds_restore_spec y dom conf (mg_autosync m) (mg_doms m) (mg_main m) (mg_trace m) Hst K L) as [b2 [s' [bb [er [tr [E1 [_ [_ [_ [R1 [R2 R3]]]]]]]]]]].
    rewrite E1 in G. cbn [obind] in G. inversion G; subst. cbn [mg_doms with_trace with_main with_doms].
    destruct (ds_find dom (mg_doms m)) as [d|] eqn:Fd; [|destruct (R1 eq_refl) as [_ [-> _]]; auto].
    destruct (dm_find conf d) as [k|] eqn:Fk; [|destruct (R2 d eq_refl Fk) as [_ [-> _]]; auto].
    destruct (R3 d k eq_refl Fk) as [l1 [l2 [evs [Q1 [-> _]]]]]. destruct D as [d1 [c [D1 [D2 [D3 D4]]]]].
    destruct (ds_find_mid (mg_doms m) l1 d l2 (with_last d (Some (cf_id k))) (ds_att (mg_doms m)) (ds_fresh (mg_doms m)) dom dn d1 Q1 Fd) as [F1 F2]; auto.
    { destruct (ds_find_split _ _ _ Fd) as [k1 [k2 [P1 [_ P3]]]]. rewrite (split_unique _ _ dm_id l1 d l2 k1 k2); auto; [rewrite <- Q1; apply (ds_ids _ _ K)|congruence]. }
    { intros N. apply find_some in Fd. destruct Fd as [_ Fd]. apply str_eqb_eq in Fd. change (dm_path_name d <> dn). congruence. }
    destruct (list_eq_dec ascii_dec dom dn) as [->|N]; [|exists d1, c; rewrite (F1 N); auto].
    destruct F2 as [-> F2]; auto; [apply find_some in Fd; destruct Fd as [_ Fd]; apply str_eqb_eq in Fd; exact Fd|]. eexists. exists c. split; [exact F2|]. auto.
  - apply (T _ _ _ H). intros G. apply (O _ _ _ G). intros s Es. assert (forall c b2 c', omap (pair true) (cf_save y (mg_main m) c) = Ok (b2, c') -> cf_name c' = cf_name c) as N.
    { intros c b2 c' E. unfold cf_save in E. destruct (omap_list _ _) as [l| | |]; try discriminate. inversion E; subst; auto. }
    eapply designates_on; [exact D|exact Es| |]; [intros d b1 d' _ Ec; apply (on_config_name _ _ _ _ _ Ec)|].
    intros d0 b0 d' c0 -> _ Ec Fc. eapply on_config_keeps; [exact Ec|exact Fc| |]; [exact N|intros ->; destruct Sp; contradiction].
  - apply (T _ _ _ H). intros G. unfold on_located in G. destruct (locate (sy_root y) path) as [p|] eqn:El; [|inversion G; subst; auto].
    apply (O _ _ _ G). intros s Es. eapply designates_on_att; [exact D|exact Es|exact Sp|]. intros d b1 d' at' Hd Ed.
    destruct (dm_add_ok y p (Some (mg_main m)) d (ds_att (mg_doms m)) Hst Os) as [b2 [d2 [at2 [E1 [_ [E2 E3]]]]]]; auto.
    { destruct (locate_sound _ _ _ El) as [e He]. congruence. }
    { intros k Hk. inversion Hk; subst; auto. } { apply (ds_domain _ _ K); auto. } { apply (ds_link y); auto. } { apply (ds_att_once _ _ K). }
    rewrite E1 in Ed. inversion Ed; subst. destruct b1; [|destruct (E2 eq_refl) as [-> _]; auto]. apply (E3 eq_refl).
  - apply (T _ _ _ H). intros G. unfold on_located in G. destruct (locate (sy_root y) path) as [p|] eqn:El; [|inversion G; subst; auto].
    apply (O _ _ _ G). intros s Es. eapply designates_on_att; [exact D|exact Es|exact Sp|]. intros d b1 d' at' Hd Ed.
    destruct (dm_remove_ok y p d (ds_att (mg_doms m))) as [b2 [d2 [at2 [E1 [_ [E2 E3]]]]]]; auto.
    { apply (ds_domain _ _ K); auto. } { apply (ds_link y); auto. } { apply (ds_att_once _ _ K). }
    rewrite E1 in Ed. inversion Ed; subst. destruct b1; [|destruct (E2 eq_refl) as [-> _]; auto]. apply (E3 eq_refl).
  - apply (T _ _ _ H). intros G. unfold on_located in G. destruct (locate (sy_root y) path) as [p|] eqn:El; [|inversion G; subst; auto].
    apply (O _ _ _ G). intros s Es. eapply designates_on_att; [exact D|exact Es|exact Sp|]. intros d b1 d' at' Hd Ed.
    destruct (dm_split_ok y p d (ds_att (mg_doms m)) Hst Os) as [b2 [d2 [at2 [E1 [_ [E2 E3]]]]]]; auto.
    { apply (ds_domain _ _ K); auto. } { apply (ds_link y); auto. } { apply (ds_att_once _ _ K). }
    cbn beta in Ed. rewrite E1 in Ed. cbn [obind snd] in Ed. inversion Ed; subst. destruct b2; [|destruct (E2 eq_refl) as [-> _]; auto].
    destruct (E3 eq_refl) as [_ [_ [_ [_ [_ [e [_ [_ [_ [F3 _]]]]]]]]]]. auto.
  - apply (T _ _ _ H). intros G. apply (O _ _ _ G). intros s Es. eapply designates_on; [exact D|exact Es| |]; [intros d b1 d' _ Ec; apply (on_config_name _ _ _ _ _ Ec)|].
    intros d0 b0 d' c0 -> _ Ec Fc. eapply on_config_keeps; [exact Ec|exact Fc| |]; [|intros ->; destruct Sp; contradiction].
    intros k b2 k' E. inversion E as [E0]. unfold cf_set_sequence in E0. destruct (sequence_loop _ _ _ _ _). inversion E0; auto.
  - apply (O _ _ _ H). intros s Es. assert (forall c b2 c', (do x <- set_application_rule (mg_crits m) text (cf_rule c); Ok (fst x, with_rule c (snd x))) = Ok (b2, c') -> cf_name c' = cf_name c /\ cf_areas c' = cf_areas c) as N.
    { intros c b2 c' E. destruct (set_application_rule _ _ _) as [x| | |]; try discriminate. inversion E; subst; auto. }
    eapply designates_on; [exact D|exact Es| |]; [intros d b1 d' _ Ec; apply (on_config_name _ _ _ _ _ Ec)|].
    intros d0 b0 d' c0 -> _ Ec Fc. eapply on_config_keeps; [exact Ec|exact Fc| |]; [intros k b2 k' E; apply (N _ _ _ E)|intros _ b2 k' E; apply (N _ _ _ E)].
  - apply (O _ _ _ H). intros s Es. eapply designates_on; [exact D|exact Es| |]; [intros d b1 d' _ Ec; apply (on_config_name _ _ _ _ _ Ec)|].
    intros d0 b0 d' c0 -> _ Ec Fc. eapply on_config_keeps; [exact Ec|exact Fc| |]; [intros k b2 k' E; inversion E; auto|intros _ b2 k' E; inversion E; auto].
  - unfold apply_configurations in H. destruct (mg_tuning m); [inversion H; subst; auto|].
    destruct (do_apply y false need m) as [m1| | |] eqn:Ea; try discriminate. cbn [obind] in H. inversion H; subst. apply (Ap _ _ _ Ea).
  - inversion H; subst; auto.
  - apply handle_set_keeps in H. destruct H as [_ [_ [_ ->]]]. auto.
  - apply handle_bytes_keeps in H. destruct H as [_ [_ [_ ->]]]. auto.
Qed.
