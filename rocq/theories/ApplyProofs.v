(** Proofs about the application of configurations. *)
From Coq Require Import List Arith ZArith Bool Sorted Permutation Lia.
From Verif Require Import Base BaseProofs BlackboardModel TreeModel TreeSpec TreeProofs MemSpec MemProofs CriterionModel RuleModel RuleSpec RuleProofs
  SyncModel SyncProofs DomainModel DomainSpec AreaProofs DomainProofs DomainInv DomainApply DomainsInv MgrModel MgrSpec MgrProofs MgrSkel ApplySpec.
Import ListNotations.
Local Open Scope nat_scope.

Definition scoped (cs : list criterion) (d : domain) : Prop := forall c r, In c (dm_configs d) -> cf_rule c = Some r -> in_scope cs r.

Lemma applicable_matches : forall cs d c, scoped cs d -> In c (dm_configs d) -> (cf_applicable cs c = true <-> matches cs c).
Proof.
  intros cs d c S Hc. unfold cf_applicable, matches. apply applicable_spec.
  - intros r Hr. apply (S c r); auto.
  - intros i k Hk. unfold state_of. rewrite Hk. auto.
Qed.

Lemma applicable_first : forall cs d c, scoped cs d -> (dm_applicable cs d = Some c <-> first_match cs d c).
Proof.
  intros cs d c S. unfold dm_applicable, first_match.
  assert (forall l, (forall k, In k l -> In k (dm_configs d)) ->
    (find (cf_applicable cs) l = Some c <-> exists l1 l2, l = l1 ++ c :: l2 /\ matches cs c /\ forall k, In k l1 -> ~ matches cs k)) as G.
  { induction l as [|x l IH]; intros I; simpl.
    - split; [discriminate|]. intros [[|? l1] [l2 [E _]]]; discriminate.
    - pose proof (applicable_matches cs d x S (I x (or_introl eq_refl))) as Mx. destruct (cf_applicable cs x) eqn:E.
      + split.
        * intros H. inversion H; subst x. exists [], l. split; auto. split; [tauto|]. intros k [].
        * intros [[|z l1] [l2 [E1 [E2 E3]]]]; simpl in E1; inversion E1; subst; auto. destruct (E3 z); simpl; tauto.
      + rewrite IH by (intros; apply I; simpl; auto). split.
        * intros [l1 [l2 [-> [E2 E3]]]]. exists (x :: l1), l2. split; auto. split; auto. intros k [<-|Hk]; auto. intros C. apply Mx in C. discriminate.
        * intros [[|z l1] [l2 [E1 [E2 E3]]]]; simpl in E1; inversion E1; subst.
          { apply Mx in E2. discriminate. }
          exists l1, l2. split; auto. split; auto. intros k Hk. apply E3. simpl. auto. }
  apply (G (dm_configs d)). auto.
Qed.

Lemma applicable_none : forall cs d, scoped cs d -> (dm_applicable cs d = None <-> none_match cs d).
Proof.
  intros cs d S. split.
  - intros H c Hc C. pose proof (find_none _ _ H c Hc) as N. apply (applicable_matches cs d c S Hc) in C. simpl in N. congruence.
  - intros H. destruct (dm_applicable cs d) as [c|] eqn:E; auto. unfold dm_applicable in E. apply find_some in E. destruct E as [E1 E2].
    destruct (H c E1). apply (applicable_matches cs d c S E1). auto.
Qed.

Lemma first_match_In : forall cs d c, first_match cs d c -> In c (dm_configs d).
Proof. intros cs d c [l1 [l2 [-> _]]]. apply in_or_app. simpl. auto. Qed.

Lemma chosen_switches : forall cs force d c, scoped cs d -> (chosen cs force d = Some c <-> switches cs force d c).
Proof.
  intros cs force d c S. unfold chosen, switches. rewrite <- (applicable_first cs d c S). destruct (dm_applicable cs d) as [k|]; [|split; [discriminate|intros [H _]; discriminate]].
  unfold is_last. destruct force; simpl.
  - split; [intros H; inversion H; auto|tauto].
  - destruct (dm_last d) as [i|]; [destruct (Nat.eqb_spec i (cf_id k)) as [E|E]|].
    + split; [discriminate|]. intros [H1 [H2|H2]]; [discriminate|]. inversion H1; subst. congruence.
    + split; [|tauto]. intros H; inversion H; subst. split; auto. right. congruence.
    + split; [|tauto]. intros H; inversion H; subst. split; auto. right. congruence.
Qed.

Lemma applied_last : forall cs force d, same_but_last d (applied cs force d).
Proof. intros cs force d. unfold applied. destruct (dm_applicable cs d); [repeat split|]. destruct force; repeat split. Qed.

(** What [written_all] gives. *)
Lemma taken_split : forall cs force l c, In c (taken cs force l) <-> exists d, In d l /\ chosen cs force d = Some c.
Proof.
  intros cs force l c. unfold taken. rewrite in_flat_map. split; intros [d [H1 H2]]; exists d; split; auto.
  - destruct (chosen cs force d); simpl in H2; [destruct H2 as [->|[]]; auto|destruct H2].
  - rewrite H2. simpl. auto.
Qed.

Lemma taken_app : forall cs force l1 l2, taken cs force (l1 ++ l2) = taken cs force l1 ++ taken cs force l2.
Proof. intros. unfold taken. apply flat_map_app. Qed.

Lemma covers_owns : forall y d c q i, structure_ok y -> domain_ok y d -> In c (dm_configs d) -> (exists e, param_at (sy_root y) q e) -> owns (sy_root y) q i -> ~ covers d q ->
  untouched (sy_root y) c i.
Proof.
  intros y d c q i [W Fa] Kd Hc [e Hq] Ho N a Ha Hoa. destruct (dk_configs _ _ Kd c Hc) as [Pm Fo].
  assert (In (ar_pos a) (dm_elems d)) as Ia by (apply (Permutation_in _ Pm), in_map; auto).
  apply (owns_apart (sy_root y) (ar_pos a) q i W Fa); auto. split.
  - intros C. apply N. exists (ar_pos a). auto.
  - intros C. destruct (owns_exists _ _ _ Hoa) as [x Hx]. destruct C as [r C]. destruct r as [|k r].
    + rewrite app_nil_r in C. apply N. exists (ar_pos a). split; auto. rewrite C. apply above_refl.
    + rewrite C, elem_at_app, (proj1 Hq) in Hx. simpl in Hx.
      assert (e_children e = []) as E0.
      { destruct (elem_wf_at q (sy_root y) e W (proj1 Hq)) as [X|[t [nm [-> _]]]]; auto. apply param_no_children; auto. apply Hq. }
      destruct e as [nm kk cs]. simpl in E0. subst cs. destruct k; discriminate.
Qed.

Lemma bit_recorded : forall y d c q i, structure_ok y -> domain_ok y d -> In c (dm_configs d) -> covers d q -> owns (sy_root y) q i ->
  exists a, In a (cf_areas c) /\ above (ar_pos a) q /\ owns (sy_root y) (ar_pos a) i.
Proof.
  intros y d c q i [W Fa] Kd Hc [p [Hp Ab]] Ho. destruct (dk_configs _ _ Kd c Hc) as [Pm Fo].
  apply (Permutation_in _ (Permutation_sym Pm)) in Hp. apply in_map_iff in Hp. destruct Hp as [a [<- Ha]]. exists a. split; auto. split; auto.
  apply (owns_above (sy_root y) (ar_pos a) q i W); auto. rewrite Forall_forall in Fo. destruct (Fo a Ha) as [x [X _]]. eauto.
Qed.

Lemma applied_settings : forall y cs force l a b, structure_ok y -> (forall d, In d l -> domain_ok y d) -> (forall d, In d l -> scoped cs d) ->
  written_all (sy_root y) (taken cs force l) a b -> settings_applied (sy_root y) cs force l a b.
Proof.
  intros y cs force l a b Hst K Sc W q e Hq. split.
  - intros N i Ho. rewrite !Nat.sub_0_r. apply (written_all_untouched _ _ _ _ i W). intros c Hc. apply taken_split in Hc. destruct Hc as [d [Hd Hc]].
    pose proof (proj1 (chosen_switches cs force d c (Sc d Hd)) Hc) as Sw. apply (covers_owns y d c q i); eauto. apply (first_match_In cs). apply Sw.
  - intros l1 d c l2 -> Sw Cv N. assert (In d (l1 ++ d :: l2)) as Hd by (apply in_or_app; simpl; auto).
    pose proof (first_match_In _ _ _ (proj1 Sw)) as Hc. destruct Cv as [p [Hp Ab]].
    destruct (dk_configs _ _ (K d Hd) c Hc) as [Pm Fo]. pose proof (Permutation_in _ (Permutation_sym Pm) Hp) as Hp2. apply in_map_iff in Hp2. destruct Hp2 as [z [Ez Hz]].
    exists z. split; auto. rewrite Ez. split; auto. intros i Ho. rewrite Nat.sub_0_r. symmetry.
    rewrite taken_app in W. change (taken cs force (d :: l2)) with (opt_list (chosen cs force d) ++ taken cs force l2) in W.
    rewrite (proj2 (chosen_switches cs force d c (Sc d Hd)) Sw) in W. cbn [opt_list app] in W.
    rewrite <- Ez in *. apply (written_all_last _ _ _ _ _ _ i (abit (sy_root y) z i) W).
    + exists z. split; auto. split; auto. apply (owns_above (sy_root y) (ar_pos z) q i (proj1 Hst)); auto. rewrite Forall_forall in Fo. destruct (Fo z Hz) as [x [X _]]. eauto.
    + intros k Hk. apply taken_split in Hk. destruct Hk as [d2 [Hd2 Hk]].
      assert (In d2 (l1 ++ d :: l2)) as Hd3 by (apply in_or_app; simpl; auto).
      pose proof (proj1 (chosen_switches cs force d2 k (Sc d2 Hd3)) Hk) as Sw2. apply (covers_owns y d2 k q i); eauto. apply (first_match_In cs). apply Sw2.
Qed.

Lemma taken_order : forall cs force l, taken cs force (filter unaware l) ++ taken cs force (filter dm_aware l) = taken cs force (apply_order l).
Proof. intros. unfold apply_order. rewrite <- taken_app. auto. Qed.

Lemma taken_taken_by : forall cs force l, (forall d, In d l -> scoped cs d) -> taken_by cs force l (taken cs force l).
Proof.
  intros cs force l. induction l as [|d l IH]; intros S; [constructor|]. change (taken cs force (d :: l)) with (opt_list (chosen cs force d) ++ taken cs force l).
  assert (scoped cs d) as Sd by (apply S; simpl; auto). assert (taken_by cs force l (taken cs force l)) by (apply IH; intros; apply S; simpl; auto).
  destruct (chosen cs force d) as [c|] eqn:E; cbn [opt_list app].
  - apply tb_switch; auto. apply chosen_switches; auto.
  - apply tb_skip; auto. intros c C. apply (chosen_switches cs force d c Sd) in C. congruence.
Qed.

Lemma rules_scoped : forall m d, rules_ok m -> In d (ds_list (mg_doms m)) -> scoped (mg_crits m) d.
Proof. intros m d R Hd c r Hc Hr. apply (R d c r); auto. Qed.

Lemma serves_linked : forall y s p, one_syncer y -> elem_at (sy_root y) p <> None -> (In s (syncer_set y p) <-> serves y s p).
Proof.
  intros y s p O E. rewrite (syncer_set_In y p s O E). unfold linked, serves. split; intros [q [H1 H2]]; exists q.
  - split; [tauto|]. split; auto. destruct H2 as [H2|H2]; [apply (above_exists _ q p); auto|tauto].
  - split; [tauto|]. destruct H1; tauto.
Qed.

Lemma area_syncs_split : forall y l evs, one_syncer y -> Forall (area_ok (sy_root y)) l -> Forall2 (sync_event y) (area_syncs y l) evs ->
  exists parts, evs = concat parts /\ Forall2 (area_synced y) l parts.
Proof.
  intros y l. induction l as [|a l IH]; intros evs O A H; [inversion H; subst; exists []; auto|].
  change (area_syncs y (a :: l)) with (map (pair a) (syncer_set y (ar_pos a)) ++ area_syncs y l) in H.
  apply Forall2_app_inv_l in H. destruct H as [e1 [e2 [H1 [H2 ->]]]]. inversion A as [|a0 l0 A1 A2 Ea]; subst.
  destruct (IH e2 O A2 H2) as [parts [-> P]]. exists (e1 :: parts). split; auto. constructor; auto.
  destruct A1 as [x [X1 X2]].
  assert (map ev_syncer e1 = syncer_set y (ar_pos a)) as Es.
  { clear - H1. revert e1 H1. induction (syncer_set y (ar_pos a)) as [|s ss IHs]; intros e1 H; inversion H as [|z1 z2 z3 z4 Z1 Z2]; subst; auto. simpl. f_equal; auto. destruct Z1; auto. }
  split; [rewrite Es; apply sorted_nodup, syncer_set_sorted|]. split.
  - intros s. rewrite Es. apply serves_linked; auto. congruence.
  - intros v Hv i Ho. rewrite Nat.sub_0_r. clear Es. revert e1 H1 Hv. induction (syncer_set y (ar_pos a)) as [|s ss IHs]; intros e1 H Hv; inversion H as [|z1 z2 z3 z4 Z1 Z2]; subst; [destruct Hv|].
    destruct Hv as [<-|Hv]; [|eauto]. destruct Z1 as [_ E]. rewrite (E i Ho). auto.
Qed.

Lemma domain_serves : forall y d s, one_syncer y -> domain_ok y d -> (In s (dm_syncers d) <-> exists p, In p (dm_elems d) /\ serves y s p).
Proof.
  intros y d s O Kd. rewrite (dk_syncers _ _ Kd). split; intros [p [H1 H2]]; exists p; split; auto;
    (destruct (dk_exist _ _ Kd p H1) as [e He]; apply (serves_linked y s p O); [congruence|auto]).
Qed.

Lemma resync_In : forall y need s, one_syncer y -> (In s (resync_syncers y need) <->
  exists i, In i need /\ elem_at (sy_root y) [i] <> None /\ serves y s [i]).
Proof.
  intros y need s O. unfold resync_syncers.
  assert (forall l acc, (forall i, In i l -> elem_at (sy_root y) [i] <> None) ->
    (In s (fold_left (fun ss i => if existsb (Nat.eqb i) need then fill_syncer_set y [i] ss else ss) l acc)
     <-> In s acc \/ exists i, In i l /\ In i need /\ serves y s [i])) as G.
  { induction l as [|i l IH]; intros acc E; cbn [fold_left].
    - split; auto. intros [H|[i [[] _]]]. auto.
    - rewrite IH by (intros; apply E; simpl; auto). assert (elem_at (sy_root y) [i] <> None) as Ei by (apply E; simpl; auto).
      destruct (existsb (Nat.eqb i) need) eqn:Ex.
      + apply existsb_exists in Ex. destruct Ex as [j [Hj Ej]]. apply Nat.eqb_eq in Ej. subst j.
        assert (In s (fill_syncer_set y [i] acc) <-> In s acc \/ serves y s [i]) as F.
        { rewrite <- (serves_linked y s [i] O Ei). unfold syncer_set, fill_syncer_set. destruct (get_syncer y [i]); [rewrite !set_add_In; simpl; tauto|].
          destruct (elem_at (sy_root y) [i]) as [x|]; [|congruence]. rewrite !fill_desc_In. simpl. tauto. }
        rewrite F. split.
        * intros [[H|H]|[k [H1 H2]]]; auto; right; [exists i|exists k]; simpl; tauto.
        * intros [H|[k [[<-|H1] H2]]]; auto; [tauto|]. right. exists k. tauto.
      + split.
        * intros [H|[k [H1 H2]]]; auto. right. exists k. simpl. tauto.
        * intros [H|[k [[<-|H1] [H2 H3]]]]; auto; [|right; exists k; tauto]. exfalso.
          assert (existsb (Nat.eqb i) need = true) by (apply existsb_exists; exists i; rewrite Nat.eqb_refl; auto). congruence. }
  assert (forall i, elem_at (sy_root y) [i] <> None <-> In i (seq 0 (List.length (e_children (sy_root y))))) as Sq.
  { intros i. rewrite in_seq. destruct (sy_root y) as [nm k cs]. simpl. destruct (nth_error cs i) eqn:E.
    - assert (i < List.length cs) by (apply nth_error_Some; congruence). split; [lia|discriminate].
    - apply nth_error_None in E. split; [congruence|lia]. }
  rewrite G by (intros i; apply Sq). split.
  - intros [[]|[i [H1 H2]]]. exists i. rewrite Sq. tauto.
  - intros [i [H1 [H2 H3]]]. right. exists i. rewrite <- Sq. tauto.
Qed.

(** Everything about one application. *)
Lemma do_apply_spec : forall y force need m, system_ok y -> mgr_ok y m -> rules_ok m ->
  exists m' mid evs1 parts, do_apply y force need m = Ok m'
    /\ mg_tuning m' = mg_tuning m /\ mg_autosync m' = mg_autosync m /\ mg_crits m' = crits_reset (mg_crits m)
    /\ ds_list (mg_doms m') = map (applied (mg_crits m) force) (ds_list (mg_doms m))
    /\ Forall2 (fun d d' => same_but_last d d'
         /\ (forall c, first_match (mg_crits m) d c -> dm_last d' = Some (cf_id c))
         /\ (none_match (mg_crits m) d -> dm_last d' = if force then None else dm_last d)) (ds_list (mg_doms m)) (ds_list (mg_doms m'))
    /\ settings_applied (sy_root y) (mg_crits m) force (apply_order (ds_list (mg_doms m))) (mg_main m) (mg_main m')
    /\ settings_applied (sy_root y) (mg_crits m) force (filter (fun d => negb (dm_aware d)) (ds_list (mg_doms m))) (mg_main m) mid
    /\ mg_trace m' = mg_trace m ++ evs1 ++ concat parts
    /\ Forall (fun v => ev_mem v = mid) evs1 /\ NoDup (map ev_syncer evs1)
    /\ (forall s, In s (map ev_syncer evs1) <->
          (exists i, In i need /\ elem_at (sy_root y) [i] <> None /\ serves y s [i])
          \/ exists d c p, In d (ds_list (mg_doms m)) /\ dm_aware d = false /\ switches (mg_crits m) force d c /\ In p (dm_elems d) /\ serves y s p)
    /\ exists cfs, taken_by (mg_crits m) force (filter dm_aware (ds_list (mg_doms m))) cfs
         /\ Forall2 (area_synced y) (flat_map cf_areas cfs) parts.
Proof.
  intros y force need m [Hst O] [K [V L]] R. set (cs := mg_crits m). set (l := ds_list (mg_doms m)).
  assert (forall d, In d l -> scoped cs d) as Sc by (intros; apply rules_scoped; auto).
  assert (forall d, In d l -> domain_ok y d) as Kd by (apply (ds_domain _ _ K)).
  destruct (ds_apply_spec y cs force (resync_syncers y need) (mg_doms m) (mg_main m) (mg_trace m) Hst K L (resync_sorted y need))
    as [mid [main' [col [e1 [e2 [E1 [W1 [W2 [C1 [C2 [C3 [C4 C5]]]]]]]]]]]].
  fold l in E1, W1, W2, C3, C5.
  destruct (area_syncs_split y (flat_map cf_areas (taken cs force (filter dm_aware l))) e2 O) as [parts [-> P]]; auto.
  { rewrite Forall_forall. intros a Ha. apply in_flat_map in Ha. destruct Ha as [c [Hc Ha]]. apply taken_split in Hc. destruct Hc as [d [Hd Hc]].
    apply filter_In in Hd. apply (chosen_switches cs force d c (Sc d (proj1 Hd))) in Hc.
    destruct (dk_configs _ _ (Kd d (proj1 Hd)) c (first_match_In _ _ _ (proj1 Hc))) as [_ Fo]. rewrite Forall_forall in Fo. auto. }
  exists (with_crits (with_trace (with_main (with_doms m (Domains (map (applied cs force) l) (ds_att (mg_doms m)) (ds_fresh (mg_doms m)))) main') (mg_trace m ++ e1 ++ concat parts)) (crits_reset cs)), mid, e1, parts.
  split. { unfold do_apply. fold cs. rewrite E1. auto. }
  cbn [mg_tuning mg_autosync mg_crits mg_doms mg_main mg_trace with_crits with_trace with_main with_doms ds_list].
  split; [auto|]. split; [auto|]. split; [auto|]. split; [auto|]. split.
  { clear - Sc. induction l as [|d l IH]; simpl; constructor; [|apply IH; intros; apply Sc; simpl; auto].
    assert (scoped cs d) as Sd by (apply Sc; simpl; auto). split; [apply applied_last|]. unfold applied. split.
    - intros c Hc. apply (applicable_first cs d c Sd) in Hc. rewrite Hc. auto.
    - intros N. apply (applicable_none cs d Sd) in N. rewrite N. destruct force; auto. }
  split. { apply (applied_settings y cs force); auto.
    - intros d Hd. apply Kd. unfold apply_order in Hd. rewrite in_app_iff, !filter_In in Hd. tauto.
    - intros d Hd. apply Sc. unfold apply_order in Hd. rewrite in_app_iff, !filter_In in Hd. tauto.
    - rewrite <- taken_order. apply (written_all_app _ _ _ _ mid); auto. }
  split. { apply (applied_settings y cs force); auto.
    - intros d Hd. apply filter_In in Hd. apply Kd. tauto.
    - intros d Hd. apply filter_In in Hd. apply Sc. tauto. }
  split; [auto|]. split; [auto|]. split; [rewrite C1; apply sorted_nodup; auto|]. split.
  { intros s. rewrite C1, C3, (resync_In y need s O). split; intros [H|[d H]]; auto; right; exists d.
    - destruct H as [H1 [H2 [H3 H4]]]. destruct (chosen cs force d) as [c|] eqn:E; [|congruence]. apply (chosen_switches cs force d c (Sc d H1)) in E.
      apply (domain_serves y d s O (Kd d H1)) in H4. destruct H4 as [p Hp]. exists c, p. tauto.
    - destruct H as [c [p [H1 [H2 [H3 [H4 H5]]]]]]. split; auto. split; auto. split.
      + apply (chosen_switches cs force d c (Sc d H1)) in H3. congruence.
      + apply (domain_serves y d s O (Kd d H1)). eauto. }
  exists (taken cs force (filter dm_aware l)). split; auto. apply taken_taken_by. intros d Hd. apply filter_In in Hd. apply Sc. tauto.
Qed.
