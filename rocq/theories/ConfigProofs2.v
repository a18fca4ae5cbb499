(** Proofs about the settings recorded by configurations: saving, restoring, splitting, associating. *)
From Coq Require Import List Arith ZArith Bool Permutation Sorted Lia Ascii String.
From Verif Require Import Base BaseProofs TextProofs BlackboardModel CriterionModel RuleModel RuleSpec RuleProofs TreeModel TreeSpec TreeProofs MemSpec MemProofs SyncModel SyncProofs DomainModel DomainSpec
  AreaProofs DomainProofs DomainInv DomainApply DomainsInv MgrModel MgrSpec MgrProofs MgrFlow MgrSkel ApplySpec ApplyProofs ValueSpec ValueProofs ReadProofs ApplyMore ConfigSpec ConfigProofs.
Import ListNotations.
Local Open Scope nat_scope.

Lemma run_designates : forall y cs m bs m' dn cn els ars, system_ok y -> mgr_ok y m -> Forall (spares dn cn) cs -> run y m cs = Ok (bs, m') ->
  designates (mg_doms m) dn cn els ars -> designates (mg_doms m') dn cn els ars.
Proof.
  intros y cs m bs m' dn cn els ars Sy K Sp H D. refine (proj2 (run_inv y (fun m => designates (mg_doms m) dn cn els ars) (spares dn cn) Sy _ cs m bs m' K D Sp H)).
  intros m0 c b m1 K0 D0 S0 H0. eapply step_designates; eauto.
Qed.

Lemma ds_found_name : forall n s d, ds_find n s = Some d -> dm_path_name d = n.
Proof. intros n s d H. apply find_some in H. destruct H as [_ H]. apply str_eqb_eq in H. exact H. Qed.
Lemma dm_found_name : forall n d c, dm_find n d = Some c -> cf_path_name c = n.
Proof. intros n d c H. apply find_some in H. destruct H as [_ H]. apply str_eqb_eq in H. exact H. Qed.

(** Saving. *)
Lemma save_effect : forall y m dn cn m1, system_ok y -> mgr_ok y m -> step y m (CSave dn cn) = Ok (true, m1) ->
  exists d c c', ds_find dn (mg_doms m) = Some d /\ dm_find cn d = Some c /\ saved y (mg_main m) c c' /\ designates (mg_doms m1) dn cn (dm_elems d) (cf_areas c')
    /\ mg_main m1 = mg_main m /\ mg_tuning m = true /\ mg_fmt m1 = mg_fmt m.
Proof.
  intros y m dn cn m1 [Hst Os] [K [V L]] H. cbn [step] in H. destruct (tuned_inv _ _ _ _ H) as [[_ [E _]]|[T G]]; [discriminate|]. destruct (on_doms_inv _ _ _ _ G) as [s [E ->]].
  destruct (ds_on_cases _ _ _ _ _ E) as [[_ [C _]]|[l1 [d [l2 [d' [E1 [E2 [E3 [E4 ->]]]]]]]]]; [discriminate|].
  destruct (dm_on_config_cases _ _ _ _ _ E4) as [[_ [C _]]|[k1 [c [k2 [c' [I1 [I2 [I3 [I4 ->]]]]]]]]]; [discriminate|].
  pose proof (dk_configs _ _ (ds_domain _ _ K d (ds_find_In _ _ _ E1)) c (dm_find_In _ _ _ I1)) as Kc.
  destruct (cf_save_spec y (dm_elems d) (mg_main m) c Hst Kc L) as [c2 [F1 [_ F2]]]. rewrite F1 in I4. inversion I4; subst c2.
  exists d, c, c'. split; auto. split; auto. split; auto. split; [|auto]. exists (with_configs d (k1 ++ c' :: k2)), c'. split; [|split; auto].
  - unfold ds_find. cbn [mg_doms with_doms ds_list]. apply find_mid_here; [intros k Hk; apply str_neqb; auto|]. apply str_eqb_eq. apply (ds_found_name _ _ _ E1).
  - unfold dm_find. cbn [dm_configs with_configs]. apply find_mid_here; [intros k Hk; apply str_neqb; auto|]. apply str_eqb_eq. rewrite <- (dm_found_name _ _ _ I1).
    unfold cf_path_name. destruct F2 as [_ [-> _]]. auto.
Qed.

(** Restoring. *)
Lemma restore_effect : forall y m dn cn els ars, system_ok y -> mgr_ok y m -> mg_tuning m = true -> designates (mg_doms m) dn cn els ars ->
  exists b m1 c, step y m (CRestore dn cn) = Ok (b, m1) /\ cf_areas c = ars /\ written (sy_root y) c (mg_main m) (mg_main m1) /\ mg_fmt m1 = mg_fmt m
    /\ exists d d', ds_find dn (mg_doms m) = Some d /\ dm_find cn d = Some c /\ ds_find dn (mg_doms m1) = Some d' /\ dm_last d' = Some (cf_id c) /\ same_but_last d d'.
Proof.
  intros y m dn cn els ars [Hst Os] [K [V L]] T [d [c [D1 [D2 [D3 D4]]]]]. cbn [step]. unfold tuned. rewrite T.
  destruct (ds_restore_spec y dn cn (mg_autosync m) (mg_doms m) (mg_main m) (mg_trace m) Hst K L) as [b2 [s' [bb [er [tr [E1 [_ [_ [_ [_ [_ R3]]]]]]]]]]].
  rewrite E1. cbn [obind]. destruct (R3 d c D1 D2) as [l1 [l2 [evs [Q1 [-> [_ [_ [_ [W _]]]]]]]]]. eexists. eexists. exists c. split; [reflexivity|]. split; auto. split; [exact W|]. split; auto.
  exists d, (with_last d (Some (cf_id c))). split; auto. split; auto. split; [|split; auto; repeat split].
  cbn [mg_doms with_trace with_main with_doms]. unfold ds_find. cbn [ds_list].
  destruct (ds_find_split _ _ _ D1) as [k1 [k2 [P1 [_ P3]]]]. assert (l1 = k1) as -> by (apply (split_unique _ _ dm_id l1 d l2 k1 k2); [rewrite <- Q1; apply (ds_ids _ _ K)|congruence]).
  apply find_mid_here; [intros k Hk; apply str_neqb; auto|]. apply str_eqb_eq. apply (ds_found_name _ _ _ D1).
Qed.

Lemma saved_written : forall y m d c c' c2 main2 main3 q e, system_ok y -> domain_ok y d -> In c (dm_configs d) -> saved y m c c' -> cf_areas c2 = cf_areas c' ->
  written (sy_root y) c2 main2 main3 -> param_at (sy_root y) q e ->
  (covers d q -> same_setting (sy_root y) q 0 main3 0 m) /\ (~ covers d q -> same_setting (sy_root y) q 0 main3 0 main2).
Proof.
  intros y m d c c' c2 main2 main3 q e [Hst Os] Kd Hc [_ [_ [_ S]]] E [_ [W1 W2]] Hq. split; intros Cv i Ho; rewrite !Nat.sub_0_r.
  - destruct (bit_recorded y d c q i Hst Kd Hc Cv Ho) as [a [Ha [Ab Oa]]]. destruct (Forall2_in_l _ _ _ _ _ a S Ha) as [a' [Ha' [P [_ [_ B]]]]].
    apply W1. exists a'. rewrite E, P. auto.
  - apply W2. pose proof (covers_owns y d c q i Hst Kd Hc (ex_intro _ e Hq) Ho Cv) as U. intros a' Ha'. rewrite E in Ha'. destruct (Forall2_in_r _ _ _ _ _ a' S Ha') as [a [Ha [P _]]].
    rewrite P. apply U. auto.
Qed.

(** ** Splitting and associating *)

(** A parameter has no children. *)
Lemma param_leaf : forall y p e, system_ok y -> param_at (sy_root y) p e -> e_children e = [].
Proof.
  intros y p e [[W _] _] [H K]. destruct (elem_wf_at p (sy_root y) e W H) as [X|[t [nm [-> _]]]]; auto. apply param_no_children; auto.
Qed.

Lemma abit_setting : forall root q a a', (forall i, owns root q i -> abit root a' i = abit root a i) ->
  same_setting root q (offset root (ar_pos a)) (ar_bb a) (offset root (ar_pos a')) (ar_bb a').
Proof. intros root q a a' H i O. symmetry. apply (H i O). Qed.

Lemma same_record_in : forall root q c c' a, In a (cf_areas c) -> In a (cf_areas c') -> above (ar_pos a) q -> same_record root q c c'.
Proof. intros root q c c' a H H' A. exists a, a. repeat split; auto. Qed.

Lemma covering_area : forall y d c q, domain_ok y d -> In c (dm_configs d) -> covers d q -> exists a, In a (cf_areas c) /\ above (ar_pos a) q.
Proof.
  intros y d c q Kd Hc [p [Hp Ab]]. destruct (dk_configs _ _ Kd c Hc) as [Pm _]. pose proof (Permutation_in _ (Permutation_sym Pm) Hp) as I. apply in_map_iff in I.
  destruct I as [a [<- Ha]]. exists a. auto.
Qed.

Lemma area_exists : forall y d c a, domain_ok y d -> In c (dm_configs d) -> In a (cf_areas c) -> exists e, elem_at (sy_root y) (ar_pos a) = Some e.
Proof. intros y d c a Kd Hc Ha. destruct (dk_configs _ _ Kd c Hc) as [_ F]. rewrite Forall_forall in F. destruct (F a Ha) as [e [H _]]. eauto. Qed.

Lemma added_records : forall y p main d c c' q e, system_ok y -> domain_ok y d -> In c (dm_configs d) -> added y p main c c' -> param_at (sy_root y) q e -> covers d q ->
  same_record (sy_root y) q c c'.
Proof.
  intros y p main d c c' q e [[W _] _] Kd Hc [_ [_ [_ [o [E [Po [_ [_ [M _]]]]]]]]] Hq Cv. destruct (covering_area y d c q Kd Hc Cv) as [a [Ha Ab]].
  destruct (descendant_of (ar_pos a) p) eqn:D.
  - exists a, o. split; auto. split; [rewrite E; apply in_or_app; simpl; auto|]. split; auto. split; [rewrite Po; apply descendant_spec in D; apply (above_trans _ (ar_pos a)); tauto|].
    apply abit_setting. intros i O. apply M; auto. apply (owns_above _ _ q); auto. apply (area_exists y d c); auto.
  - apply (same_record_in _ _ _ _ a); auto. rewrite E. apply in_or_app. left. apply filter_In. rewrite D. auto.
Qed.

Lemma splitted_records : forall y p pe d c c' q e, system_ok y -> domain_ok y d -> In c (dm_configs d) -> elem_at (sy_root y) p = Some pe -> e_children pe <> [] ->
  splitted y p (children_pos p pe) c c' -> param_at (sy_root y) q e -> covers d q -> same_record (sy_root y) q c c'.
Proof.
  intros y p pe d c c' q e Sy Kd Hc Ep Ch [_ [_ [_ [o [news [Ho [Po [E [Pn [_ [_ B]]]]]]]]]]] Hq Cv. destruct (covering_area y d c q Kd Hc Cv) as [a [Ha Ab]].
  destruct (pos_eq_dec (ar_pos a) p) as [P|P].
  - destruct Ab as [r Er]. rewrite P in Er. assert (exists i, r = i :: tl r) as [i Ei].
    { destruct r as [|i r]; [|exists i; auto]. exfalso. rewrite app_nil_r in Er. subst q. apply Ch. rewrite <- (param_leaf y p e Sy Hq). f_equal. destruct Hq as [Hq _]. congruence. }
    assert (elem_at (sy_root y) (p ++ [i]) <> None) as Ne. { apply (above_exists _ _ q); [exists (tl r); rewrite Er, Ei, <- app_assoc; auto|]. destruct Hq as [-> _]. discriminate. }
    assert (In (p ++ [i]) (children_pos p pe)) as In1.
    { apply children_pos_In. exists i. split; auto. rewrite elem_at_app, Ep in Ne. simpl in Ne. apply nth_error_Some. destruct (nth_error (e_children pe) i); congruence. }
    rewrite <- Pn in In1. apply in_map_iff in In1. destruct In1 as [n [Np Hn]]. exists a, n. split; auto. split; [rewrite E; apply in_or_app; auto|].
    assert (above (ar_pos n) q) as An by (rewrite Np; exists (tl r); rewrite Er, Ei, <- app_assoc; auto). split; [exists r; rewrite P; auto|]. split; auto.
    assert (o = a) as ->. { apply (one_area y d c o a q); auto; [exists r; rewrite Po; auto|exists r; rewrite P; auto]. }
    apply abit_setting. intros j O. apply B; auto. apply (owns_above _ _ q); auto; [apply Sy|]. rewrite Np. destruct (elem_at (sy_root y) (p ++ [i])); [eauto|congruence].
  - apply (same_record_in _ _ _ _ a); auto. rewrite E. apply in_or_app. left. apply filter_In. split; auto. apply negb_true_iff. apply pos_eqb_neq. auto.
Qed.

Lemma att_step : forall n f s b s', ds_on_att n f s = Ok (b, s') -> forall d, ds_find n s = Some d ->
  (forall b d' at', f d (ds_att s) = Ok (b, (d', at')) -> dm_name d' = dm_name d) ->
  exists d' at', f d (ds_att s) = Ok (b, (d', at')) /\ ds_find n s' = Some d' /\ forall n2, n2 <> n -> ds_find n2 s' = ds_find n2 s.
Proof.
  intros n f s b s' H d F Hn. destruct (ds_on_att_cases _ _ _ _ _ H) as [[N _]|[l1 [d0 [l2 [d' [at' [E1 [E2 [E3 [E4 ->]]]]]]]]]]; [congruence|].
  assert (d0 = d) as -> by congruence. exists d', at'. split; auto. assert (dm_path_name d' = n) as P. { unfold dm_path_name. rewrite (Hn _ _ _ E4). apply (ds_found_name _ _ _ E1). }
  split; [unfold ds_find; cbn [ds_list]; apply find_mid_here; [intros k Hk; apply str_neqb; auto|apply str_eqb_eq; auto]|].
  intros n2 D. unfold ds_find. cbn [ds_list]. rewrite E2. apply find_mid_other; apply str_neqb; [rewrite (ds_found_name _ _ _ E1)|]; congruence.
Qed.

Definition keeps_records (y : system) (d d' : domain) : Prop :=
  dm_last d' = dm_last d /\ (forall q, (exists e, param_at (sy_root y) q e) -> covers d q -> covers d' q)
  /\ Forall2 (fun c c' => cf_id c' = cf_id c /\ cf_name c' = cf_name c /\ cf_rule c' = cf_rule c
       /\ forall q e, param_at (sy_root y) q e -> covers d q -> same_record (sy_root y) q c c') (dm_configs d) (dm_configs d').

Lemma keeps_records_refl : forall y d, domain_ok y d -> keeps_records y d d.
Proof.
  intros y d K. split; auto. split; auto. pose proof (fun c => covering_area y d c) as G. assert (forall c, In c (dm_configs d) -> forall q e, param_at (sy_root y) q e -> covers d q -> same_record (sy_root y) q c c) as G2.
  { intros c Hc q e Hq Cv. destruct (G c q K Hc Cv) as [a [Ha Ab]]. apply (same_record_in _ _ _ _ a); auto. }
  clear G. revert G2. induction (dm_configs d) as [|c l IH]; intros G2; constructor; auto. { split; auto. split; auto. split; auto. intros q e Hq Cv. apply (G2 c (or_introl eq_refl) q e); auto. } apply IH. intros c0 H0 q e Hq Cv. apply (G2 c0 (or_intror H0) q e); auto.
Qed.

Lemma Forall2_in_l2 : forall A B (R S : A -> B -> Prop) l l', Forall2 R l l' -> (forall a b, In a l -> R a b -> S a b) -> Forall2 S l l'.
Proof. intros A B R S l l' H. induction H; intros G; constructor; auto. apply G; simpl; auto. apply IHForall2. intros; apply G; simpl; auto. Qed.

Lemma split_effect : forall y m dn path m1 b d, system_ok y -> mgr_ok y m -> step y m (CSplit dn path) = Ok (b, m1) -> ds_find dn (mg_doms m) = Some d ->
  mg_main m1 = mg_main m /\ mg_fmt m1 = mg_fmt m /\ (forall n, n <> dn -> ds_find n (mg_doms m1) = ds_find n (mg_doms m))
  /\ exists d', ds_find dn (mg_doms m1) = Some d' /\ keeps_records y d d'
     /\ ((exists p e, mg_tuning m = true /\ locate (sy_root y) path = Some p /\ In p (dm_elems d) /\ elem_at (sy_root y) p = Some e /\ e_children e <> []
            /\ dm_elems d' = filter (fun q => negb (pos_eqb q p)) (dm_elems d) ++ children_pos p e)
         \/ (m1 = m /\ forall p e, mg_tuning m = true -> locate (sy_root y) path = Some p -> elem_at (sy_root y) p = Some e -> ~ In p (dm_elems d) \/ e_children e = [])).
Proof.
  intros y m dn path m1 b d Sy [K [V L]] H F. pose proof Sy as [Hst Os]. assert (domain_ok y d) as Kd by (apply (ds_domain _ _ K), (ds_find_In _ _ _ F)).
  cbn [step] in H. destruct (tuned_inv _ _ _ _ H) as [[T [_ ->]]|[T G]].
  { split; auto. split; auto. split; auto. exists d. split; auto. split; [apply keeps_records_refl; auto|]. right. split; auto. congruence. }
  unfold on_located in G. destruct (locate (sy_root y) path) as [p|] eqn:El.
  2:{ inversion G; subst. split; auto. split; auto. split; auto. exists d. split; auto. split; [apply keeps_records_refl; auto|]. right. split; auto. congruence. }
  destruct (on_doms_inv _ _ _ _ G) as [s [E ->]]. cbn [mg_doms mg_main with_doms]. split; auto. split; auto.
  destruct (dm_split_ok y p d (ds_att (mg_doms m)) Hst Os Kd (ds_link y _ _ K (ds_find_In _ _ _ F)) (ds_att_once _ _ K)) as [b2 [d2 [at2 [E1 [Hb [E2 E3]]]]]].
  destruct (att_step _ _ _ _ _ E d F) as [d' [at' [E4 [E5 E6]]]].
  { intros b3 d3 at3 E4. rewrite E1 in E4. cbn [obind snd] in E4. inversion E4; subst. destruct b2; [|destruct (E2 eq_refl) as [-> _]; auto]. destruct (E3 eq_refl) as [_ [_ [_ [_ [_ [e [_ [_ [_ [N _]]]]]]]]]]. auto. }
  split; auto. exists d'. split; auto. rewrite E1 in E4. cbn [obind snd] in E4. inversion E4; subst d2 at2 b. destruct b2.
  - destruct (proj1 Hb eq_refl) as [I [e [He Ch]]]. destruct (E3 eq_refl) as [Kd' [_ [_ [_ [_ [e' [He' [El' [Fo [_ [_ La]]]]]]]]]]]. assert (e' = e) as -> by congruence. split.
    + split; auto. split.
      * intros q [e0 Hq] [x [Hx Ax]]. destruct (pos_eq_dec x p) as [->|N].
        -- destruct Ax as [r Er]. destruct r as [|i r].
           { exfalso. rewrite app_nil_r in Er. subst q. apply Ch. rewrite <- (param_leaf y p e0 Sy Hq). f_equal. destruct Hq as [Hq _]. congruence. }
           exists (p ++ [i]). split; [rewrite El'; apply in_or_app; right|exists r; rewrite <- app_assoc; auto]. apply children_pos_In. exists i. split; auto.
           apply nth_error_Some. destruct Hq as [Hq _]. rewrite Er, elem_at_app, He in Hq. simpl in Hq. destruct (nth_error (e_children e) i); congruence.
        -- exists x. split; auto. rewrite El'. apply in_or_app. left. apply filter_In. split; auto. apply negb_true_iff, pos_eqb_neq. auto.
      * eapply Forall2_in_l2; [exact Fo|]. intros c c' Hc S. pose proof S as [S1 [S2 [S3 _]]]. split; auto. split; auto. split; auto. intros q e0 Hq Cv. apply (splitted_records y p e d c c' q e0); auto.
    + left. exists p, e. auto 10.
  - destruct (E2 eq_refl) as [-> ->]. split; [apply keeps_records_refl; auto|]. right.
    assert (s = mg_doms m) as ->.
    { destruct (ds_on_att_cases _ _ _ _ _ E) as [[_ [_ ->]]|[l1 [d0 [l2 [d3 [at3 [Q1 [Q2 [Q3 [Q4 ->]]]]]]]]]]; auto. assert (d0 = d) as -> by congruence. rewrite E1 in Q4. cbn [obind snd] in Q4. inversion Q4; subst.
      rewrite <- Q2. destruct (mg_doms m); auto. }
    split; [destruct m; auto|]. intros p0 e _ E0 He. inversion E0; subst p0. destruct (e_children e) as [|k r] eqn:Ec; auto. left. intros I. assert (false = true) by (apply Hb; split; auto; exists e; split; auto; congruence). discriminate.
Qed.

Lemma add_effect : forall y m dn path m1 b d, system_ok y -> mgr_ok y m -> step y m (CAddElement dn path) = Ok (b, m1) -> ds_find dn (mg_doms m) = Some d ->
  mg_main m1 = mg_main m /\ mg_fmt m1 = mg_fmt m /\ (forall n, n <> dn -> ds_find n (mg_doms m1) = ds_find n (mg_doms m))
  /\ exists d', ds_find dn (mg_doms m1) = Some d' /\ keeps_records y d d'
     /\ (b = true -> exists p, locate (sy_root y) path = Some p /\ ~ covers d p /\ dm_elems d' = filter (fun q => negb (descendant_of q p)) (dm_elems d) ++ [p]).
Proof.
  intros y m dn path m1 b d Sy [K [V L]] H F. pose proof Sy as [Hst Os]. assert (domain_ok y d) as Kd by (apply (ds_domain _ _ K), (ds_find_In _ _ _ F)).
  cbn [step] in H. destruct (tuned_inv _ _ _ _ H) as [[T [-> ->]]|[T G]].
  { split; auto. split; auto. split; auto. exists d. split; auto. split; [apply keeps_records_refl; auto|]. discriminate. }
  unfold on_located in G. destruct (locate (sy_root y) path) as [p|] eqn:El.
  2:{ inversion G; subst. split; auto. split; auto. split; auto. exists d. split; auto. split; [apply keeps_records_refl; auto|]. discriminate. }
  destruct (on_doms_inv _ _ _ _ G) as [s [E ->]]. cbn [mg_doms mg_main with_doms]. split; auto. split; auto.
  destruct (dm_add_ok y p (Some (mg_main m)) d (ds_att (mg_doms m)) Hst Os) as [b2 [d2 [at2 [E1 [Hb [E2 E3]]]]]]; auto.
  { destruct (locate_sound _ _ _ El) as [e He]. congruence. } { intros k Hk. inversion Hk; subst; auto. } { apply (ds_link y); auto. apply (ds_find_In _ _ _ F). } { apply (ds_att_once _ _ K). }
  destruct (att_step _ _ _ _ _ E d F) as [d' [at' [E4 [E5 E6]]]].
  { intros b3 d3 at3 E4. rewrite E1 in E4. inversion E4; subst. destruct b3; [|destruct (E2 eq_refl) as [-> _]; auto]. apply (E3 eq_refl). }
  split; auto. exists d'. split; auto. rewrite E1 in E4. inversion E4; subst d2 at2 b2. destruct b.
  - destruct (E3 eq_refl) as [_ [_ [_ [_ [_ [El' [Fo [_ [_ La]]]]]]]]]. split; [|intros _; exists p; split; auto; split; [apply Hb; auto|exact El']]. split; auto. split.
    + intros q _ [x [Hx Ax]]. destruct (descendant_of x p) eqn:D.
      * exists p. split; [rewrite El'; apply in_or_app; simpl; auto|]. apply descendant_spec in D. apply (above_trans _ x); tauto.
      * exists x. split; auto. rewrite El'. apply in_or_app. left. apply filter_In. split; auto. unfold not_below. rewrite D. auto.
    + eapply Forall2_in_l2; [exact Fo|]. intros c c' Hc S. pose proof S as [S1 [S2 [S3 _]]]. split; auto. split; auto. split; auto. intros q e0 Hq Cv. apply (added_records y p (Some (mg_main m)) d c c' q e0); auto.
  - destruct (E2 eq_refl) as [-> ->]. split; [apply keeps_records_refl; auto|discriminate].
Qed.

(** ** Reading recorded settings *)

Lemma run_typed : forall y cs m bs m', reachable_typed y m -> Forall all_typed cs -> run y m cs = Ok (bs, m') -> reachable_typed y m'.
Proof.
  intros y cs. induction cs as [|c cs IH]; intros m bs m' R F H; cbn [run] in H; [inversion H; subst; auto|]. inversion F as [|c0 l0 F1 F2]; subst.
  destruct (step y m c) as [[b m1]| | |] eqn:E; try discriminate. cbn [obind fst snd] in H. destruct (run y m1 cs) as [[bs' m2]| | |] eqn:E2; try discriminate.
  cbn [obind fst snd] in H. inversion H; subst. apply (IH m1 bs'); auto. apply (typed_step y m c b); auto.
Qed.

Lemma run_reachable : forall y cs m bs m', reachable y m -> run y m cs = Ok (bs, m') -> reachable y m'.
Proof.
  intros y cs. induction cs as [|c cs IH]; intros m bs m' R H; cbn [run] in H; [inversion H; subst; auto|].
  destruct (step y m c) as [[b m1]| | |] eqn:E; try discriminate. cbn [obind fst snd] in H. destruct (run y m1 cs) as [[bs' m2]| | |] eqn:E2; try discriminate.
  cbn [obind fst snd] in H. inversion H; subst. apply (IH m1 bs'); auto. apply (reachable_step y m c b); auto.
Qed.

Lemma recorded_area_any : forall y m dn cn path q e d c, system_ok y -> mgr_ok y m -> locate (sy_root y) path = Some q -> param_at (sy_root y) q e ->
  ds_find dn (mg_doms m) = Some d -> dm_find cn d = Some c -> covers d q ->
  exists a, In a (cf_areas c) /\ above (ar_pos a) q
    /\ ds_find_blackboard dn cn q (mg_doms m) = Some (d, c, ar_pos a) /\ cf_area_bb (ar_pos a) c = ar_bb a
    /\ get_recorded y dn cn path m = (do v <- access_get (sy_root y) (mg_fmt m) path (offset (sy_root y) (ar_pos a)) (ar_bb a); if is_last d c then get_parameter y path m else Ok v).
Proof.
  intros y m dn cn path q e d c [[W _] _] [K [V L]] P Hq Fd Fc [p [Hp Ab]]. unfold get_recorded. rewrite P.
  destruct (ds_find_blackboard dn cn q (mg_doms m)) as [[[d0 c0] x]|] eqn:E.
  - destruct (find_blackboard_spec _ _ _ _ _ _ _ _ K E) as [F1 [F2 [F3 [F4 [a [F5 [F6 F7]]]]]]]. rewrite Fd in F1. inversion F1; subst d0. rewrite Fc in F2. inversion F2; subst c0.
    exists a. split; auto. rewrite F6. split; auto. split; auto. split; auto. rewrite F7. auto.
  - exfalso. unfold ds_find_blackboard in E. rewrite Fd in E. unfold dm_find_blackboard in E. rewrite Fc in E.
    assert (belongs_to (ds_att (mg_doms m)) q (dm_id d) = true) as B.
    { apply belongs_to_spec. exists p. split; auto. apply (ds_attached _ _ K). exists d. split; [apply (ds_find_In _ _ _ Fd)|auto]. }
    rewrite B in E. destruct (find _ (dm_elems d)) as [x|] eqn:X; [discriminate|]. pose proof (find_none _ _ X p Hp) as N. simpl in N. apply orb_false_iff in N. destruct N as [N1 N2].
    assert (p <> q) as D by (intros ->; rewrite pos_eqb_refl in N1; discriminate).
    assert (descendant_of q p = true) as C by (apply descendant_spec; auto). congruence.
Qed.

Lemma recorded_same : forall y m m' dn cn path q e d c d' c', system_ok y -> mgr_ok y m -> mgr_ok y m' -> reachable_typed y m -> mg_fmt m' = mg_fmt m ->
  locate (sy_root y) path = Some q -> param_at (sy_root y) q e ->
  ds_find dn (mg_doms m) = Some d -> dm_find cn d = Some c -> covers d q -> ds_find dn (mg_doms m') = Some d' -> dm_find cn d' = Some c' -> covers d' q ->
  is_last d' c' = is_last d c -> (is_last d c = true -> get_parameter y path m' = get_parameter y path m) -> same_record (sy_root y) q c c' ->
  get_recorded y dn cn path m' = get_recorded y dn cn path m.
Proof.
  intros y m m' dn cn path q e d c d' c' Sy K K' R F P Hq Fd Fc Cv Fd' Fc' Cv' El Eg [a0 [a1 [Ha0 [Ha1 [Ab0 [Ab1 S]]]]]]. pose proof (proj1 (proj1 Sy)) as W.
  destruct (recorded_area_any y m dn cn path q e d c Sy K P Hq Fd Fc Cv) as [a [Ha [Ab [_ [_ E]]]]]. destruct (recorded_area_any y m' dn cn path q e d' c' Sy K' P Hq Fd' Fc' Cv') as [a' [Ha' [Ab' [_ [_ E']]]]].
  pose proof (ds_domain _ _ (proj1 K) d (ds_find_In _ _ _ Fd)) as Kd. pose proof (dm_find_In _ _ _ Fc) as Hc. assert (a0 = a) as -> by (apply (one_area y d c a0 a q); auto).
  pose proof (ds_domain _ _ (proj1 K') d' (ds_find_In _ _ _ Fd')) as Kd'. pose proof (dm_find_In _ _ _ Fc') as Hc'. assert (a1 = a') as -> by (apply (one_area y d' c' a1 a' q); auto).
  destruct (locate_param _ _ _ W P) as [e' [Ee Pp]]. pose proof (proj1 Hq) as Eq. assert (e' = e) as -> by congruence. rewrite (proj2 Hq) in Pp.
  assert (area_ok (sy_root y) a) as Ka. { destruct (dk_configs _ _ Kd c Hc) as [_ Fo]. rewrite Forall_forall in Fo. auto. }
  assert (area_ok (sy_root y) a') as Ka'. { destruct (dk_configs _ _ Kd' c' Hc') as [_ Fo]. rewrite Forall_forall in Fo. auto. }
  destruct (area_fits _ _ _ _ W Ka Hq Ab) as [F1 F2]. rewrite (storage_size_kind e (proj2 Hq)) in F2.
  destruct (area_fits _ _ _ _ W Ka' Hq Ab') as [F1' F2']. rewrite (storage_size_kind e (proj2 Hq)) in F2'.
  assert (access_get (sy_root y) (mg_fmt m) path (offset (sy_root y) (ar_pos a)) (ar_bb a) = access_get (sy_root y) (mg_fmt m') path (offset (sy_root y) (ar_pos a')) (ar_bb a')) as G.
  { unfold access_get. rewrite Pp, Eq, F. apply (same_setting_get (sy_root y) q e (mg_fmt m) [] _ _ _ _ W Hq); auto; try lia.
    intros max Km. apply (typed_recorded_strings y m d c a q e max); auto. apply (ds_find_In _ _ _ Fd). }
  rewrite E, E', <- G, El. destruct (access_get _ _ _ _ _); cbn [obind]; auto. destruct (is_last d c); auto.
Qed.

Lemma find_Forall2 : forall A B (R : A -> B -> Prop) (f : A -> bool) (g : B -> bool) l l', Forall2 R l l' -> (forall a b, R a b -> g b = f a) ->
  forall a, find f l = Some a -> exists b, find g l' = Some b /\ R a b.
Proof.
  intros A B R f g l l' H G. induction H as [|x z l l' Hxz H IH]; intros a E; simpl in *; [discriminate|]. rewrite (G x z Hxz). destruct (f x); [inversion E; subst; eauto|auto].
Qed.

Lemma keeps_read : forall y m m' dn cn path q e d c d', system_ok y -> mgr_ok y m -> mgr_ok y m' -> reachable_typed y m -> mg_fmt m' = mg_fmt m -> mg_main m' = mg_main m ->
  locate (sy_root y) path = Some q -> param_at (sy_root y) q e ->
  ds_find dn (mg_doms m) = Some d -> dm_find cn d = Some c -> covers d q -> ds_find dn (mg_doms m') = Some d' -> keeps_records y d d' ->
  get_recorded y dn cn path m' = get_recorded y dn cn path m.
Proof.
  intros y m m' dn cn path q e d c d' Sy K K' R F M P Hq Fd Fc Cv Fd' [La [Co Fo]].
  destruct (find_Forall2 _ _ _ (fun c => str_eqb (cf_path_name c) cn) (fun c => str_eqb (cf_path_name c) cn) _ _ Fo) with (a := c) as [c' [Fc' [I [N [_ S]]]]]; auto.
  { intros a b [_ [N _]]. unfold cf_path_name. rewrite N. auto. }
  apply (recorded_same y m m' dn cn path q e d c d' c'); auto; [apply Co; eauto|unfold is_last; rewrite La, I; auto|intros _; unfold get_parameter; rewrite F, M; auto|apply (S q e); auto].
Qed.

(** ** The sequence of the elements *)

Lemma paths_distinct : forall y d c, names_ok (sy_root y) -> domain_ok y d -> In c (dm_configs d) -> NoDup (cf_sequence y c).
Proof.
  intros y d c N Kd Hc. destruct (dk_configs _ _ Kd c Hc) as [Pm Fo]. destruct (dk_separate _ _ Kd) as [Nd _].
  pose proof (Permutation_NoDup (Permutation_sym Pm) Nd) as N2. unfold cf_sequence. rewrite <- (map_map ar_pos (path_in (sy_root y))).
  assert (forall p, In p (map ar_pos (cf_areas c)) -> elem_at (sy_root y) p <> None) as Ex.
  { intros p Hp. apply in_map_iff in Hp. destruct Hp as [a [<- Ha]]. rewrite Forall_forall in Fo. destruct (Fo a Ha) as [e [E _]]. congruence. }
  revert N2 Ex. generalize (map ar_pos (cf_areas c)). intros l N2 Ex. induction N2 as [|p l Hn N2 IH]; cbn [map]; constructor.
  - intros C. apply in_map_iff in C. destruct C as [p' [E Hp']]. apply Hn. assert (locate (sy_root y) (path_in (sy_root y) p') = Some p') as X by (apply locate_path; auto; apply Ex; simpl; auto).
    rewrite E, locate_path in X; auto; [|apply Ex; simpl; auto]. inversion X; subst. auto.
  - apply IH. intros q Hq. apply Ex. simpl. auto.
Qed.

Lemma filter_map : forall A B (g : A -> B) (f : B -> bool) l, map g (filter (fun a => f (g a)) l) = filter f (map g l).
Proof. intros A B g f l. induction l as [|a l IH]; simpl; auto. destruct (f (g a)); simpl; rewrite IH; auto. Qed.

Lemma sequence_effect : forall y m dn cn paths b m1 d c, names_ok (sy_root y) -> mgr_ok y m -> step y m (CSequence dn cn paths) = Ok (b, m1) -> mg_tuning m = true ->
  ds_find dn (mg_doms m) = Some d -> dm_find cn d = Some c ->
  exists d' c', ds_find dn (mg_doms m1) = Some d' /\ dm_find cn d' = Some c' /\ dm_elems d' = dm_elems d /\ Permutation (cf_areas c') (cf_areas c)
    /\ (b = true <-> NoDup paths /\ forall s, In s paths -> In s (cf_sequence y c))
    /\ (b = true -> cf_sequence y c' = paths ++ filter (fun s => negb (existsb (str_eqb s) paths)) (cf_sequence y c)).
Proof.
  intros y m dn cn paths b m1 d c Nk [K _] H T Fd Fc. cbn [step] in H. unfold tuned in H. rewrite T in H. destruct (on_doms_inv _ _ _ _ H) as [s [E ->]].
  destruct (ds_on_cases _ _ _ _ _ E) as [[C _]|[l1 [d0 [l2 [d' [E1 [E2 [E3 [E4 ->]]]]]]]]]; [congruence|]. assert (d0 = d) as -> by congruence.
  destruct (dm_on_config_cases _ _ _ _ _ E4) as [[C _]|[k1 [c0 [k2 [c' [I1 [I2 [I3 [I4 ->]]]]]]]]]; [congruence|]. assert (c0 = c) as -> by congruence.
  inversion I4 as [I5]. clear I4. pose proof (ds_domain _ _ K d (ds_find_In _ _ _ Fd)) as Kd. pose proof (paths_distinct y d c Nk Kd (dm_find_In _ _ _ Fc)) as Nd.
  assert (cf_name c' = cf_name c) as Nm. { unfold cf_set_sequence in I5. destruct (sequence_loop y paths [] [] (cf_areas c)). inversion I5; auto. }
  exists (with_configs d (k1 ++ c' :: k2)), c'. split; [|split; [|split; [reflexivity|]]].
  - unfold ds_find. cbn [mg_doms with_doms ds_list]. apply find_mid_here; [intros k Hk; apply str_neqb; auto|]. apply str_eqb_eq. apply (ds_found_name _ _ _ E1).
  - unfold dm_find. cbn [dm_configs with_configs]. apply find_mid_here; [intros k Hk; apply str_neqb; auto|]. apply str_eqb_eq. rewrite <- (dm_found_name _ _ _ I1). unfold cf_path_name. rewrite Nm. auto.
  - unfold cf_set_sequence in I5. destruct (sequence_loop_spec y paths [] [] (cf_areas c) eq_refl Nd (NoDup_nil _)) as [S1 S2].
    destruct (sequence_loop y paths [] [] (cf_areas c)) as [ok l] eqn:Es. cbn [fst snd app] in S1, S2. inversion I5; subst b c'. cbn [cf_areas with_areas]. split; [apply (sequence_perm _ _ _ _ _ _ _ Es)|].
    split; [exact S1|]. intros B. destruct (S2 B) as [firsts [L Pf]]. unfold cf_sequence at 1. cbn [cf_areas with_areas]. rewrite L, map_app. f_equal; [exact Pf|].
    apply (filter_map _ _ (area_path y) (fun s => negb (existsb (str_eqb s) paths))).
Qed.
