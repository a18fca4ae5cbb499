(** Proofs: the editing commands refine the lists of CatSpec. *)
From Coq Require Import List Arith Bool Ascii String Lia Permutation.
From Verif Require Import Base BaseProofs TextModel BlackboardModel TreeModel TreeSpec TreeProofs MemSpec CriterionModel RuleModel RuleSpec RuleProofs SyncModel DomainModel DomainSpec
  DomainProofs DomainInv DomainsInv DomainApply MgrModel MgrSpec MgrProofs SyncProofs MgrFlow MgrSkel ConfigProofs2 CatSpec.
Import ListNotations.
Local Open Scope nat_scope.

(** ** Lists *)

Lemma pick_split : forall A (f : A -> bool) l1 x l2, f x = true -> (forall k, In k l1 -> f k = false) -> pick f (l1 ++ x :: l2) = Some (l1, x, l2).
Proof.
  intros A f l1 x l2 H. induction l1 as [|a l1 IH]; intros K; simpl; [rewrite H; auto|].
  rewrite (K a) by (left; auto). rewrite IH; auto. intros k Hk. apply K. right; auto.
Qed.

Lemma pick_none : forall A (f : A -> bool) l, (forall k, In k l -> f k = false) -> pick f l = None.
Proof. intros A f l. induction l as [|a l IH]; intros K; simpl; auto. rewrite (K a) by (left; auto). rewrite IH; auto. intros k Hk. apply K. right; auto. Qed.

Lemma goes_dom : forall n d, dom_called n (see_dom d) = true <-> dm_path_name d = n.
Proof. intros n d. unfold dom_called, goes_by, see_dom, dm_path_name. cbn [vd_name]. rewrite str_eqb_eq. destruct (dm_name d); reflexivity. Qed.
Lemma goes_dom_false : forall n d, dm_path_name d <> n -> dom_called n (see_dom d) = false.
Proof. intros n d H. destruct (dom_called n (see_dom d)) eqn:E; auto. apply goes_dom in E. contradiction. Qed.
Lemma goes_conf : forall n c, conf_called n (see_conf c) = true <-> cf_path_name c = n.
Proof. intros n c. unfold conf_called, goes_by, see_conf, cf_path_name. cbn [vc_name]. rewrite str_eqb_eq. destruct (cf_name c); reflexivity. Qed.
Lemma goes_conf_false : forall n c, cf_path_name c <> n -> conf_called n (see_conf c) = false.
Proof. intros n c H. destruct (conf_called n (see_conf c)) eqn:E; auto. apply goes_conf in E. contradiction. Qed.

Lemma pick_dom : forall n l1 d l2, dm_path_name d = n -> (forall k, In k l1 -> dm_path_name k <> n) ->
  pick (dom_called n) (map see_dom (l1 ++ d :: l2)) = Some (map see_dom l1, see_dom d, map see_dom l2).
Proof.
  intros n l1 d l2 H K. rewrite map_app. cbn [map]. apply pick_split; [apply goes_dom; auto|].
  intros k Hk. apply in_map_iff in Hk. destruct Hk as [j [<- Hj]]. apply goes_dom_false. apply K; auto.
Qed.
Lemma pick_dom_none : forall n l, (forall k, In k l -> dm_path_name k <> n) -> pick (dom_called n) (map see_dom l) = None.
Proof. intros n l K. apply pick_none. intros k Hk. apply in_map_iff in Hk. destruct Hk as [j [<- Hj]]. apply goes_dom_false. apply K; auto. Qed.
Lemma pick_conf : forall n l1 c l2, cf_path_name c = n -> (forall k, In k l1 -> cf_path_name k <> n) ->
  pick (conf_called n) (map see_conf (l1 ++ c :: l2)) = Some (map see_conf l1, see_conf c, map see_conf l2).
Proof.
  intros n l1 c l2 H K. rewrite map_app. cbn [map]. apply pick_split; [apply goes_conf; auto|].
  intros k Hk. apply in_map_iff in Hk. destruct Hk as [j [<- Hj]]. apply goes_conf_false. apply K; auto.
Qed.
Lemma pick_conf_none : forall n l, (forall k, In k l -> cf_path_name k <> n) -> pick (conf_called n) (map see_conf l) = None.
Proof. intros n l K. apply pick_none. intros k Hk. apply in_map_iff in Hk. destruct Hk as [j [<- Hj]]. apply goes_conf_false. apply K; auto. Qed.

Lemma under_spec : forall p q, under p q = true <-> above p q.
Proof.
  induction p as [|i p IH]; intros q; simpl.
  - split; auto. intros _. exists q. auto.
  - destruct q as [|j q]; [split; [discriminate|intros [r H]; discriminate H]|].
    rewrite andb_true_iff, Nat.eqb_eq, IH. split.
    + intros [-> [r ->]]. exists r. auto.
    + intros [r H]. inversion H; subst. split; auto. exists r. auto.
Qed.
Lemma under_descendant : forall p q, negb (pos_eqb p q) = true -> under p q = descendant_of q p.
Proof.
  intros p q H. rewrite negb_true_iff, pos_eqb_neq in H. destruct (under p q) eqn:E; symmetry.
  - apply descendant_spec. apply under_spec in E. auto.
  - destruct (descendant_of q p) eqn:D; auto. apply descendant_spec in D. destruct D as [D _]. apply under_spec in D. congruence.
Qed.
Lemma same_spec : forall p q, same p q = pos_eqb q p.
Proof.
  intros p q. unfold same. destruct (pos_eqb q p) eqn:E.
  - apply pos_eqb_eq in E. subst. assert (U : under p p = true) by (apply under_spec; apply above_refl). rewrite U. auto.
  - destruct (under p q && under q p) eqn:U; auto. apply andb_true_iff in U. destruct U as [U V]. apply under_spec in U, V.
    destruct U as [r ->]. destruct V as [s V]. rewrite <- app_assoc in V. rewrite <- (app_nil_r p) in V at 1. apply app_inv_head in V. symmetry in V. apply app_eq_nil in V. destruct V as [-> _].
    rewrite app_nil_r in E. rewrite pos_eqb_refl in E. discriminate.
Qed.

(** ** Commands on one domain, on one configuration *)

Lemma see_on : forall n f g s b s', ds_on n f s = Ok (b, s') ->
  (forall d b d', In d (ds_list s) -> f d = Ok (b, d') -> g (see_dom d) = (b, see_dom d')) ->
  on_dom n g (map see_dom (ds_list s)) = (b, map see_dom (ds_list s')).
Proof.
  intros n f g s b s' H K. unfold on_dom. destruct (ds_on_cases _ _ _ _ _ H) as [[F [-> ->]]|[l1 [d [l2 [d' [F [L [N [Fd ->]]]]]]]]].
  - rewrite pick_dom_none; auto. apply ds_find_None; auto.
  - destruct (ds_find_split _ _ _ F) as [_ [_ [_ [E _]]]]. rewrite L, pick_dom by auto. rewrite (K d b d'); auto; [|rewrite L; apply in_elt].
    cbn [ds_list]. rewrite map_app. auto.
Qed.
Lemma see_on_att : forall n f g s b s', ds_on_att n f s = Ok (b, s') ->
  (forall d b d' at', In d (ds_list s) -> f d (ds_att s) = Ok (b, (d', at')) -> g (see_dom d) = (b, see_dom d')) ->
  on_dom n g (map see_dom (ds_list s)) = (b, map see_dom (ds_list s')).
Proof.
  intros n f g s b s' H K. unfold on_dom. destruct (ds_on_att_cases _ _ _ _ _ H) as [[F [-> ->]]|[l1 [d [l2 [d' [at' [F [L [N [Fd ->]]]]]]]]]].
  - rewrite pick_dom_none; auto. apply ds_find_None; auto.
  - destruct (ds_find_split _ _ _ F) as [_ [_ [_ [E _]]]]. rewrite L, pick_dom by auto. rewrite (K d b d' at'); auto; [|rewrite L; apply in_elt].
    cbn [ds_list]. rewrite map_app. auto.
Qed.
Lemma see_on_conf : forall n f g d b d', dm_on_config n f d = Ok (b, d') ->
  (forall c b c', In c (dm_configs d) -> f c = Ok (b, c') -> g (see_conf c) = (b, see_conf c')) ->
  on_conf n g (see_dom d) = (b, see_dom d').
Proof.
  intros n f g d b d' H K. unfold on_conf, see_dom at 1. cbn [vd_confs].
  destruct (dm_on_config_cases _ _ _ _ _ H) as [[F [-> ->]]|[l1 [c [l2 [c' [F [L [N [Fc ->]]]]]]]]].
  - rewrite pick_conf_none; auto. apply dm_find_None; auto.
  - destruct (dm_find_split _ _ _ F) as [_ [_ [_ [E _]]]]. rewrite L, pick_conf by auto. rewrite (K c b c'); auto; [|rewrite L; apply in_elt].
    unfold vd_with, see_dom. cbn [dm_name dm_aware dm_elems dm_configs with_configs vd_name vd_aware vd_elems]. rewrite map_app. auto.
Qed.

(** ** The element sequence *)

Lemma usable_unseen : forall known seen paths s, In s (usable known seen paths) -> ~ In s seen /\ known s = true.
Proof.
  intros known seen paths. revert seen. induction paths as [|t r IH]; simpl; intros seen s H; [contradiction|].
  destruct (known t && negb (existsb (str_eqb t) seen)) eqn:E; [|contradiction]. apply andb_true_iff in E. destruct E as [E1 E2].
  destruct H as [<-|H].
  - split; auto. intros I. apply negb_true_iff in E2. assert (T : existsb (str_eqb t) seen = true) by (apply existsb_exists; exists t; split; auto; apply str_eqb_eq; auto). congruence.
  - destruct (IH _ _ H) as [A B]. split; auto. intros I. apply A. right; auto.
Qed.

Lemma existsb_same : forall A (f : A -> bool) l l', (forall a, In a l <-> In a l') -> existsb f l = existsb f l'.
Proof.
  intros A f l l' H. destruct (existsb f l) eqn:E; symmetry.
  - apply existsb_exists in E. destruct E as [a [I Fa]]. apply existsb_exists. exists a. split; auto. apply H; auto.
  - destruct (existsb f l') eqn:E'; auto. apply existsb_exists in E'. destruct E' as [a [I Fa]].
    assert (T : existsb f l = true) by (apply existsb_exists; exists a; split; auto; apply H; auto). congruence.
Qed.

Lemma usable_ext : forall k k' seen seen' paths, (forall s, k s = k' s) -> (forall s, In s seen <-> In s seen') -> usable k seen paths = usable k' seen' paths.
Proof.
  intros k k' seen seen' paths. revert seen seen'. induction paths as [|t r IH]; simpl; intros seen seen' H1 H2; auto.
  rewrite H1, (existsb_same _ _ seen seen') by auto. destruct (k' t && negb (existsb (str_eqb t) seen')); auto. rewrite (IH (t :: seen) (t :: seen')); auto.
  intros s. simpl. rewrite H2. tauto.
Qed.

Definition has_path (y : system) (l : list area) (s : str) : bool := existsb (fun a => str_eqb (area_path y a) s) l.

Lemma sequence_loop_full : forall y paths seen placed rest,
  seen = map (area_path y) placed -> NoDup (map (area_path y) (placed ++ rest)) ->
  let firsts := usable (has_path y (placed ++ rest)) seen paths in
  fst (sequence_loop y paths seen placed rest) = (List.length firsts =? List.length paths)
  /\ snd (sequence_loop y paths seen placed rest)
     = placed ++ flat_map (fun s => filter (fun a => str_eqb (area_path y a) s) rest) firsts
              ++ filter (fun a => negb (existsb (str_eqb (area_path y a)) firsts)) rest.
Proof.
  intros y paths. induction paths as [|path more IH]; intros seen placed rest Es N firsts.
  - subst firsts. cbn [sequence_loop usable fst snd flat_map existsb negb List.length]. split; auto. rewrite (filter_all _ _ rest); auto.
  - cbn [sequence_loop]. subst firsts. cbn [usable]. set (known := has_path y (placed ++ rest)).
    destruct (find_area_path y path (placed ++ rest)) as [a|] eqn:Ef.
    + assert (Kp : known path = true).
      { destruct (find_area_path_split _ _ _ _ Ef) as [l1 [l2 [L [Pa _]]]]. unfold known, has_path. apply existsb_exists. exists a. split; [rewrite L; apply in_elt|apply str_eqb_eq; auto]. }
      rewrite Kp. cbn [andb]. destruct (existsb (str_eqb path) seen) eqn:Ex.
      * cbn [negb fst snd flat_map existsb List.length]. split; auto. cbn [app]. rewrite (filter_all _ _ rest); auto.
      * cbn [negb].
        assert (Fp : find_area_path y path placed = None).
        { apply find_area_path_None. intros k Hk Pk. assert (T : existsb (str_eqb path) seen = true) by (apply existsb_exists; exists path; split; [subst seen; apply in_map_iff; exists k; auto|apply str_eqb_eq; auto]). congruence. }
        unfold splice. rewrite Fp. rewrite find_area_path_app, Fp in Ef.
        destruct (find_area_path_split _ _ _ _ Ef) as [r1 [r2 [Er [Pa [Nr1 Dr]]]]]. rewrite Dr.
        assert (Pm : Permutation ((placed ++ [a]) ++ r1 ++ r2) (placed ++ rest)).
        { rewrite <- app_assoc. apply Permutation_app_head. rewrite Er. cbn [app]. apply Permutation_middle. }
        assert (N' : NoDup (map (area_path y) ((placed ++ [a]) ++ r1 ++ r2))) by (apply (Permutation_NoDup (Permutation_map _ (Permutation_sym Pm))); auto).
        assert (Es' : seen ++ [path] = map (area_path y) (placed ++ [a])) by (rewrite map_app; cbn [map]; rewrite Pa; congruence).
        destruct (IH (seen ++ [path]) (placed ++ [a]) (r1 ++ r2) Es' N') as [I1 I2].
        assert (U : usable (has_path y ((placed ++ [a]) ++ r1 ++ r2)) (seen ++ [path]) more = usable known (path :: seen) more).
        { apply usable_ext.
          - intros s. unfold known, has_path. apply existsb_same. intros x. split; intros Hx; [apply (Permutation_in _ Pm)|apply (Permutation_in _ (Permutation_sym Pm))]; auto.
          - intros s. rewrite in_app_iff. simpl. tauto. }
        rewrite U in I1, I2. set (fs := usable known (path :: seen) more) in *.
        split; [rewrite I1; reflexivity|]. rewrite I2. rewrite <- app_assoc. f_equal. cbn [flat_map].
        (* nothing else in the rest has this path *)
        assert (O : forall k, In k (r1 ++ r2) -> area_path y k <> path).
        { intros k Hk Pk. rewrite map_app in N'. rewrite map_app in N'. cbn [map] in N'. rewrite <- app_assoc in N'. cbn [app] in N'. apply NoDup_remove_2 in N'. apply N'.
          apply in_or_app. right. apply in_map_iff. exists k. split; auto. congruence. }
        assert (F1 : filter (fun x => str_eqb (area_path y x) path) rest = [a]).
        { rewrite Er, filter_app. cbn [filter]. assert (T : str_eqb (area_path y a) path = true) by (apply str_eqb_eq; auto). rewrite T.
          rewrite (filter_none _ _ r1), (filter_none _ _ r2); auto; intros k Hk; destruct (str_eqb (area_path y k) path) eqn:E; auto; apply str_eqb_eq in E; exfalso; apply (O k); auto; apply in_or_app; auto. }
        rewrite F1. cbn [app]. f_equal.
        assert (Z : ~ In path fs). { intros I. destruct (usable_unseen _ _ _ _ I) as [A _]. apply A. left; auto. }
        f_equal.
        -- assert (G : forall l, ~ In path l -> flat_map (fun s => filter (fun x => str_eqb (area_path y x) s) (r1 ++ r2)) l = flat_map (fun s => filter (fun x => str_eqb (area_path y x) s) rest) l).
           { induction l as [|s l IHl]; intros Hn; cbn [flat_map]; auto. rewrite IHl by (intros I; apply Hn; right; auto). f_equal. rewrite Er, !filter_app. cbn [filter].
             destruct (str_eqb (area_path y a) s) eqn:E; auto. apply str_eqb_eq in E. exfalso. apply Hn. left. congruence. }
           apply G; auto.
        -- rewrite Er, !filter_app. cbn [filter existsb]. assert (T : str_eqb (area_path y a) path = true) by (apply str_eqb_eq; auto). rewrite T. cbn [orb negb].
           f_equal; apply filter_ext_in; intros k Hk; assert (W : str_eqb (area_path y k) path = false) by (destruct (str_eqb (area_path y k) path) eqn:E; auto; apply str_eqb_eq in E; exfalso; apply (O k); auto; apply in_or_app; auto);
             rewrite W; auto.
    + assert (Kp : known path = false).
      { unfold known, has_path. destruct (existsb _ _) eqn:E; auto. apply existsb_exists in E. destruct E as [a [Ia Pa]]. apply str_eqb_eq in Pa. rewrite find_area_path_None in Ef. exfalso. apply (Ef a); auto. }
      rewrite Kp. cbn [andb fst snd flat_map existsb List.length negb app]. split; auto. rewrite (filter_all _ _ rest); auto.
Qed.

Lemma see_set_sequence : forall y paths c, NoDup (map (area_path y) (cf_areas c)) ->
  let firsts := usable (fun s => existsb (fun p => str_eqb (path_in (sy_root y) p) s) (vc_order (see_conf c))) [] paths in
  fst (cf_set_sequence y paths c) = (List.length firsts =? List.length paths)
  /\ see_conf (snd (cf_set_sequence y paths c)) = VConf (cf_name c) (cf_rule c) (reorder (sy_root y) firsts (vc_order (see_conf c))).
Proof.
  intros y paths c N. cbn zeta. unfold cf_set_sequence. destruct (sequence_loop_full y paths [] [] (cf_areas c) eq_refl N) as [A B].
  assert (U : usable (fun s => existsb (fun p => str_eqb (path_in (sy_root y) p) s) (vc_order (see_conf c))) [] paths = usable (has_path y ([] ++ cf_areas c)) [] paths).
  { apply usable_ext; [|tauto]. intros s. unfold has_path, see_conf. cbn [vc_order app]. clear. induction (cf_areas c) as [|a l IH]; simpl; auto. rewrite IH. auto. }
  rewrite U. set (fs := usable (has_path y ([] ++ cf_areas c)) [] paths) in *.
  destruct (sequence_loop y paths [] [] (cf_areas c)) as [ok l]. cbn [fst snd app] in A, B |- *. split; [exact A|]. unfold see_conf. cbn [cf_name cf_rule cf_areas with_areas vc_order]. f_equal.
  rewrite B. unfold reorder. rewrite map_app. f_equal.
  - clear. induction fs as [|s fs IH]; cbn [flat_map]; auto. rewrite map_app, IH. f_equal. apply (map_filter _ _ ar_pos (fun p => str_eqb (path_in (sy_root y) p) s)).
  - apply (map_filter _ _ ar_pos (fun p => negb (existsb (str_eqb (path_in (sy_root y) p)) fs))).
Qed.

(** ** Changes of the elements *)

Lemma not_under : forall p q, ~ above q p -> negb (under p q) = not_below p q.
Proof.
  intros p q H. unfold not_below. f_equal. apply under_descendant. apply negb_true_iff, pos_eqb_neq. intros ->. apply H. apply above_refl.
Qed.

Lemma see_forall2 : forall (R : config -> config -> Prop) f l l', Forall2 R l l' ->
  (forall c c', In c l -> R c c' -> cf_name c' = cf_name c /\ cf_rule c' = cf_rule c /\ map ar_pos (cf_areas c') = f (map ar_pos (cf_areas c))) ->
  map see_conf l' = map (fun c => VConf (vc_name c) (vc_rule c) (f (vc_order c))) (map see_conf l).
Proof.
  intros R f l l' F. induction F as [|c c' l l' H F IH]; intros K; simpl; auto.
  destruct (K c c' (or_introl eq_refl) H) as [A [B C]]. rewrite IH by (intros; apply K; auto; right; auto). f_equal. unfold see_conf. cbn [vc_name vc_rule vc_order]. congruence.
Qed.

Lemma see_added : forall y p main d at_ d' at' b, structure_ok y -> one_syncer y -> elem_at (sy_root y) p <> None -> List.length main = footprint (sy_root y) ->
  domain_ok y d -> att_link d at_ -> NoDup at_ -> dm_add y p (Some main) d at_ = Ok (b, (d', at')) ->
  (if existsb (fun q => under q p) (vd_elems (see_dom d)) then (false, see_dom d)
   else (true, rearrange (fun o => filter (fun q => negb (under p q)) o ++ [p]) (see_dom d))) = (b, see_dom d').
Proof.
  intros y p main d at_ d' at' b Hs Ho He Hm K L N H.
  destruct (dm_add_ok y p (Some main) d at_ Hs Ho He) as [b0 [d0 [at0 [E [B [F T]]]]]]; auto. { intros m E. inversion E; subst; auto. }
  rewrite E in H. inversion H; subst b0 d0 at0. unfold see_dom at 1. cbn [vd_elems].
  assert (X : existsb (fun q => under q p) (dm_elems d) = negb b).
  { destruct b; cbn [negb].
    - destruct (existsb (fun q => under q p) (dm_elems d)) eqn:X; auto. apply existsb_exists in X. destruct X as [q [I U]]. apply under_spec in U. exfalso. apply (proj1 B eq_refl). exists q. auto.
    - destruct (existsb (fun q => under q p) (dm_elems d)) eqn:X; auto. assert (C : ~ covers d p).
      { intros [q [I U]]. apply under_spec in U. assert (Z : existsb (fun q => under q p) (dm_elems d) = true) by (apply existsb_exists; exists q; auto). congruence. }
      apply B in C. discriminate C. }
  rewrite X. destruct b; cbn [negb].
  - destruct (T eq_refl) as [K' [_ [_ [_ [_ [El [Fa [Nm [Aw _]]]]]]]]]. pose proof (proj1 B eq_refl) as C. f_equal. unfold rearrange, see_dom. cbn [vd_name vd_aware vd_elems vd_confs]. rewrite Nm, Aw, El. f_equal.
    + f_equal. apply filter_ext_in. intros q Hq. apply not_under. intros A. apply C. exists q; auto.
    + symmetry. apply (see_forall2 (added y p (Some main)) (fun o => filter (fun q => negb (under p q)) o ++ [p])); auto.
      intros c c' Ic [_ [A1 [A2 [o [A3 [A4 _]]]]]]. split; auto. split; auto. rewrite A3, map_app. cbn [map]. rewrite A4. f_equal.
      rewrite (map_filter _ _ ar_pos (fun q => negb (descendant_of q p))). apply filter_ext_in. intros q Hq. symmetry. apply not_under. intros A. apply C. exists q. split; auto.
      destruct (dk_configs _ _ K c Ic) as [P _]. apply (Permutation_in _ P). auto.
  - destruct (F eq_refl) as [-> _]. auto.
Qed.

Lemma see_removed : forall y p d at_ d' at' b, domain_ok y d -> att_link d at_ -> NoDup at_ -> dm_remove y p d at_ = Ok (b, (d', at')) ->
  (if existsb (same p) (vd_elems (see_dom d)) then (true, rearrange (filter (fun q => negb (same p q))) (see_dom d)) else (false, see_dom d)) = (b, see_dom d').
Proof.
  intros y p d at_ d' at' b K L N H. destruct (dm_remove_ok y p d at_ K L N) as [b0 [d0 [at0 [E [B [F T]]]]]]. rewrite E in H. inversion H; subst b0 d0 at0. unfold see_dom at 1. cbn [vd_elems].
  assert (X : existsb (same p) (dm_elems d) = b).
  { destruct b.
    - apply existsb_exists. exists p. split; [apply B; auto|]. rewrite same_spec. apply pos_eqb_refl.
    - destruct (existsb (same p) (dm_elems d)) eqn:X; auto. apply existsb_exists in X. destruct X as [q [I U]]. rewrite same_spec in U. apply pos_eqb_eq in U. subst q. apply B in I. discriminate I. }
  rewrite X. destruct b.
  - destruct (T eq_refl) as [K' [_ [_ [_ [_ [El [Fa [Nm [Aw _]]]]]]]]]. f_equal. unfold rearrange, see_dom. cbn [vd_name vd_aware vd_elems vd_confs]. rewrite Nm, Aw, El. f_equal.
    + apply filter_ext. intros q. rewrite same_spec. auto.
    + symmetry. apply (see_forall2 (removed p) (filter (fun q => negb (same p q)))); auto. intros c c' _ R. unfold removed in R. subst c'. cbn [cf_name cf_rule cf_areas with_areas]. split; auto. split; auto.
      rewrite (map_filter _ _ ar_pos (fun q => negb (pos_eqb q p))). apply filter_ext. intros q. rewrite same_spec. auto.
  - destruct (F eq_refl) as [-> _]. auto.
Qed.

Lemma children_same : forall y p e, elem_at (sy_root y) p = Some e -> children_at (sy_root y) p = children_pos p e.
Proof. intros y p e H. unfold children_at. rewrite H. auto. Qed.

Lemma see_splitted : forall y p d at_ d' at' b, structure_ok y -> one_syncer y -> domain_ok y d -> att_link d at_ -> NoDup at_ -> dm_split y p d at_ = Ok (b, (d', at')) ->
  (if existsb (same p) (vd_elems (see_dom d)) && negb (match children_at (sy_root y) p with [] => true | _ => false end)
   then rearrange (fun o => filter (fun q => negb (same p q)) o ++ children_at (sy_root y) p) (see_dom d) else see_dom d) = see_dom d'.
Proof.
  intros y p d at_ d' at' b Hs Ho K L N H. destruct (dm_split_ok y p d at_ Hs Ho K L N) as [b0 [d0 [at0 [E [B [F T]]]]]]. rewrite E in H. inversion H; subst b0 d0 at0. unfold see_dom at 1. cbn [vd_elems].
  assert (X : existsb (same p) (dm_elems d) && negb (match children_at (sy_root y) p with [] => true | _ => false end) = b).
  { destruct b.
    - destruct (proj1 B eq_refl) as [I [e [Ee Ce]]]. rewrite (children_same _ _ _ Ee). apply andb_true_iff. split.
      + apply existsb_exists. exists p. split; auto. rewrite same_spec. apply pos_eqb_refl.
      + unfold children_pos. destruct (e_children e); [contradiction Ce; auto|]. auto.
    - destruct (existsb (same p) (dm_elems d) && _) eqn:X; auto. apply andb_true_iff in X. destruct X as [X1 X2]. apply existsb_exists in X1. destruct X1 as [q [I U]]. rewrite same_spec in U. apply pos_eqb_eq in U. subst q.
      destruct (dk_exist _ _ K p I) as [e Ee]. rewrite (children_same _ _ _ Ee) in X2. assert (Z : false = true); [|discriminate Z]. apply B. split; auto. exists e. split; auto. intros C. unfold children_pos in X2. rewrite C in X2. discriminate X2. }
  rewrite X. destruct b.
  - destruct (T eq_refl) as [K' [_ [_ [_ [_ [e [Ee [El [Fa [Nm [Aw _]]]]]]]]]]]. rewrite (children_same _ _ _ Ee). unfold rearrange, see_dom. cbn [vd_name vd_aware vd_elems vd_confs]. rewrite Nm, Aw, El. f_equal.
    + f_equal. apply filter_ext. intros q. rewrite same_spec. auto.
    + symmetry. apply (see_forall2 (splitted y p (children_pos p e)) (fun o => filter (fun q => negb (same p q)) o ++ children_pos p e)); auto.
      intros c c' _ [_ [A1 [A2 [o [news [_ [_ [A3 [A4 _]]]]]]]]]. split; auto. split; auto. rewrite A3, map_app, A4. f_equal.
      rewrite (map_filter _ _ ar_pos (fun q => negb (pos_eqb q p))). apply filter_ext. intros q. rewrite same_spec. auto.
  - destruct (F eq_refl) as [-> _]. auto.
Qed.

(** ** Names *)

Lemma others_dom : forall l1 d l2 new, NoDup (map dm_id (l1 ++ d :: l2)) ->
  existsb (fun k => negb (dm_id k =? dm_id d) && str_eqb (dm_name k) new) (l1 ++ d :: l2) = existsb (fun k => str_eqb (vd_name k) new) (map see_dom l1 ++ map see_dom l2).
Proof.
  intros l1 d l2 new N. rewrite map_app in N. cbn [map] in N. pose proof (NoDup_remove_2 _ _ _ N) as R. rewrite <- map_app in *.
  assert (G : forall l, (forall k, In k l -> dm_id k <> dm_id d) -> existsb (fun k => negb (dm_id k =? dm_id d) && str_eqb (dm_name k) new) l = existsb (fun k => str_eqb (vd_name k) new) (map see_dom l)).
  { induction l as [|k l IH]; intros Hk; simpl; auto. rewrite IH by (intros; apply Hk; right; auto). assert (E : (dm_id k =? dm_id d) = false) by (apply Nat.eqb_neq; apply Hk; left; auto). rewrite E. auto. }
  rewrite <- G.
  - rewrite !existsb_app. cbn [existsb]. rewrite Nat.eqb_refl. cbn [negb andb orb]. auto.
  - intros k Hk E. apply R. apply in_map_iff. exists k. auto.
Qed.
Lemma others_conf : forall l1 c l2 new, NoDup (map cf_id (l1 ++ c :: l2)) ->
  existsb (fun k => negb (cf_id k =? cf_id c) && str_eqb (cf_name k) new) (l1 ++ c :: l2) = existsb (fun k => str_eqb (vc_name k) new) (map see_conf l1 ++ map see_conf l2).
Proof.
  intros l1 c l2 new N. rewrite map_app in N. cbn [map] in N. pose proof (NoDup_remove_2 _ _ _ N) as R. rewrite <- map_app in *.
  assert (G : forall l, (forall k, In k l -> cf_id k <> cf_id c) -> existsb (fun k => negb (cf_id k =? cf_id c) && str_eqb (cf_name k) new) l = existsb (fun k => str_eqb (vc_name k) new) (map see_conf l)).
  { induction l as [|k l IH]; intros Hk; simpl; auto. rewrite IH by (intros; apply Hk; right; auto). assert (E : (cf_id k =? cf_id c) = false) by (apply Nat.eqb_neq; apply Hk; left; auto). rewrite E. auto. }
  rewrite <- G.
  - rewrite !existsb_app. cbn [existsb]. rewrite Nat.eqb_refl. cbn [negb andb orb]. auto.
  - intros k Hk E. apply R. apply in_map_iff. exists k. auto.
Qed.

(** ** The commands *)

Lemma see_create : forall n s b s', ds_create n s = (b, s') ->
  (match pick (dom_called n) (map see_dom (ds_list s)) with Some _ => (false, map see_dom (ds_list s)) | None => (true, map see_dom (ds_list s) ++ [VDom n false [] []]) end)
  = (b, map see_dom (ds_list s')).
Proof.
  intros n s b s' H. unfold ds_create in H. destruct (ds_find n s) as [d|] eqn:F; inversion H; subst.
  - destruct (ds_find_split _ _ _ F) as [l1 [l2 [L [E N]]]]. rewrite L, pick_dom; auto.
  - rewrite pick_dom_none by (apply ds_find_None; auto). cbn [ds_list]. rewrite map_app. auto.
Qed.

Lemma see_delete : forall n s b s', ds_delete n s = (b, s') ->
  (match pick (dom_called n) (map see_dom (ds_list s)) with Some (l1, _, l2) => (true, l1 ++ l2) | None => (false, map see_dom (ds_list s)) end) = (b, map see_dom (ds_list s')).
Proof.
  intros n s b s' H. unfold ds_delete in H. destruct (ds_find n s) as [d|] eqn:F; inversion H; subst.
  - destruct (ds_find_split _ _ _ F) as [l1 [l2 [L [E N]]]]. rewrite L, pick_dom by auto. cbn [ds_list]. rewrite drop_domain_split by auto. rewrite map_app. auto.
  - rewrite pick_dom_none; auto. apply ds_find_None; auto.
Qed.

Lemma see_rename : forall n new s b s', NoDup (map dm_id (ds_list s)) -> ds_rename n new s = (b, s') ->
  (match pick (dom_called n) (map see_dom (ds_list s)) with
   | Some (l1, d, l2) => if existsb (fun k => str_eqb (vd_name k) new) (l1 ++ l2) then (false, map see_dom (ds_list s)) else (true, l1 ++ VDom new (vd_aware d) (vd_elems d) (vd_confs d) :: l2)
   | None => (false, map see_dom (ds_list s))
   end) = (b, map see_dom (ds_list s')).
Proof.
  intros n new s b s' Nd H. unfold ds_rename in H. destruct (ds_find n s) as [d|] eqn:F.
  - destruct (ds_find_split _ _ _ F) as [l1 [l2 [L [E N]]]]. rewrite L, pick_dom by auto. rewrite L in H, Nd. rewrite others_dom in H by auto.
    destruct (existsb (fun k => str_eqb (vd_name k) new) (map see_dom l1 ++ map see_dom l2)).
    + inversion H; subst. rewrite L. auto.
    + rewrite upd_domain_split in H by auto. cbn [obind fst snd] in H. inversion H; subst. cbn [ds_list]. rewrite map_app. auto.
  - inversion H; subst. rewrite pick_dom_none; auto. apply ds_find_None; auto.
Qed.

Lemma see_create_config : forall y k main d b d', structure_ok y -> List.length main = footprint (sy_root y) -> domain_ok y d -> dm_create_config y k main d = Ok (b, d') ->
  (match pick (conf_called k) (vd_confs (see_dom d)) with Some _ => (false, see_dom d) | None => (true, vd_with (see_dom d) (vd_confs (see_dom d) ++ [VConf k None (vd_elems (see_dom d))])) end)
  = (b, see_dom d').
Proof.
  intros y k main d b d' Hs Hm K H. destruct (dm_create_config_ok y k main d Hs Hm K) as [b0 [d0 [E [B [F T]]]]]. rewrite E in H. inversion H; subst b0 d0. change (vd_confs (see_dom d)) with (map see_conf (dm_configs d)). change (vd_elems (see_dom d)) with (dm_elems d).
  destruct b.
  - rewrite pick_conf_none by (apply B; auto). destruct (T eq_refl) as [_ [[_ [El _]] [Nm [Aw [_ [c [Ec [N1 [N2 [_ [N3 _]]]]]]]]]]]. f_equal. unfold vd_with, see_dom. cbn [vd_name vd_aware vd_elems]. rewrite Nm, Aw, El, Ec, map_app. cbn [map].
    assert (Q : see_conf c = VConf k None (dm_elems d)) by (unfold see_conf; rewrite N1, N2, N3; auto). rewrite Q. auto.
  - rewrite (F eq_refl). destruct (dm_find k d) as [c|] eqn:Fc.
    + destruct (dm_find_split _ _ _ Fc) as [l1 [l2 [L [E1 N]]]]. rewrite L, pick_conf; auto.
    + exfalso. assert (Z : false = true) by (apply B; apply dm_find_None; auto). discriminate Z.
Qed.

Lemma see_delete_config : forall k d b d', dm_delete_config k d = (b, d') ->
  (match pick (conf_called k) (vd_confs (see_dom d)) with Some (l1, _, l2) => (true, vd_with (see_dom d) (l1 ++ l2)) | None => (false, see_dom d) end) = (b, see_dom d').
Proof.
  intros k d b d' H. unfold dm_delete_config in H. change (vd_confs (see_dom d)) with (map see_conf (dm_configs d)). destruct (dm_find k d) as [c|] eqn:F; inversion H; subst.
  - destruct (dm_find_split _ _ _ F) as [l1 [l2 [L [E N]]]]. rewrite L, pick_conf by auto.
    assert (X : dm_configs (if is_last d c then with_last d None else d) = l1 ++ c :: l2) by (destruct (is_last d c); auto). rewrite X, drop_config_split by auto.
    f_equal. unfold vd_with, see_dom. cbn [vd_name vd_aware vd_elems dm_name dm_aware dm_elems dm_configs with_configs]. rewrite map_app. destruct (is_last d c); auto.
  - rewrite pick_conf_none; auto. apply dm_find_None; auto.
Qed.

Lemma see_rename_config : forall k new d b d', NoDup (map cf_id (dm_configs d)) -> dm_rename_config k new d = (b, d') ->
  (match pick (conf_called k) (vd_confs (see_dom d)) with
   | Some (l1, c, l2) => if existsb (fun x => str_eqb (vc_name x) new) (l1 ++ l2) then (false, see_dom d) else (true, vd_with (see_dom d) (l1 ++ VConf new (vc_rule c) (vc_order c) :: l2))
   | None => (false, see_dom d)
   end) = (b, see_dom d').
Proof.
  intros k new d b d' Nd H. unfold dm_rename_config in H. change (vd_confs (see_dom d)) with (map see_conf (dm_configs d)). destruct (dm_find k d) as [c|] eqn:F.
  - destruct (dm_find_split _ _ _ F) as [l1 [l2 [L [E N]]]]. rewrite L, pick_conf by auto. rewrite L in H, Nd. rewrite others_conf in H by auto.
    destruct (existsb (fun x => str_eqb (vc_name x) new) (map see_conf l1 ++ map see_conf l2)).
    + inversion H; subst. auto.
    + rewrite upd_config_split in H by auto. cbn [obind fst snd] in H. inversion H; subst. f_equal. unfold vd_with, see_dom. cbn [vd_name vd_aware vd_elems dm_name dm_aware dm_elems dm_configs with_configs]. rewrite map_app. auto.
  - inversion H; subst. rewrite pick_conf_none; auto. apply dm_find_None; auto.
Qed.

(** What the text of a rule stands for. *)
Definition parsed_of (cs : list criterion) (c : cmd) : option rule := match c with CSetRule _ _ t => match parse_text cs t with Ok r => Some r | _ => None end | _ => None end.

Lemma parsed_stands : forall cs c, crits_ok cs -> stands_for cs c (parsed_of cs c).
Proof.
  intros cs c Hc. destruct c; try exact Logic.I. cbn [stands_for parsed_of]. split.
  - intros r Hr. rewrite (parse_text_complete cs r _ Hc Hr). auto.
  - intros r Hr. destruct (parse_text cs text) as [x| | |] eqn:E; try discriminate. inversion Hr; subst. exact (parse_text_legal cs text r Hc E).
Qed.

Lemma set_rule_parsed : forall cs s old b r, set_application_rule cs s old = Ok (b, r) ->
  match parse_text cs s with Ok x => b = true /\ r = Some x | _ => b = false /\ r = old end.
Proof.
  intros cs s old b r H. unfold set_application_rule in H. destruct (parse_text cs s); inversion H; subst; auto.
Qed.

Lemma edit_step : forall y m c b s', system_ok y -> names_ok (sy_root y) -> mgr_ok y m -> crits_ok (mg_crits m) -> editing c = true ->
  (for_tuning c && negb (mg_tuning m)) = false -> step y m c = Ok (b, s') ->
  exists s1, s' = with_doms m s1 /\ edit (sy_root y) (parsed_of (mg_crits m) c) c (see m) = (b, map see_dom (ds_list s1)).
Proof.
  intros y m c b m' [Hst Ho] Nm [K [V L]] Hc Ed Ft H. unfold see.
  assert (T : for_tuning c = true -> mg_tuning m = true) by (intros F; rewrite F in Ft; destruct (mg_tuning m); auto). clear Ft.
  assert (Ki : forall d, In d (ds_list (mg_doms m)) -> domain_ok y d) by (apply (ds_domain _ _ K)).
  destruct c; try discriminate Ed; clear Ed; cbn [step] in H; cbn [edit];
    (try (unfold tuned in H; rewrite T in H by reflexivity)); clear T;
    (try (unfold on_located in H; destruct (locate (sy_root y) _) as [p|] eqn:Lo; [|injection H as <- <-; exists (mg_doms m); split; [destruct m; reflexivity|reflexivity]]));
    apply on_doms_inv in H; destruct H as [s [H ->]]; exists s; (split; [reflexivity|]).
  - apply see_create. inversion H; auto.
  - apply see_delete. inversion H; auto.
  - inversion H; subst. auto.
  - apply see_rename; [apply (ds_ids _ _ K)|]. inversion H; auto.
  - eapply see_on; [exact H|]. intros d b9 d' _ E. inversion E; subst. auto.
  - eapply see_on; [exact H|]. intros d b9 d' Id E. exact (see_create_config y _ _ d b9 d' Hst L (Ki d Id) E).
  - eapply see_on; [exact H|]. intros d b9 d' Id E. apply see_delete_config. inversion E; auto.
  - eapply see_on; [exact H|]. intros d b9 d' Id E. apply see_rename_config; [apply (dk_ids _ _ (Ki d Id))|]. inversion E; auto.
  - eapply see_on; [exact H|]. intros d b9 d' Id E. eapply see_on_conf; [exact E|]. intros c b1 c' Ic F.
    destruct (cf_save_spec y (dm_elems d) (mg_main m) c Hst (dk_configs _ _ (Ki d Id) c Ic) L) as [c1 [E1 [_ [_ [N1 [N2 Fa]]]]]]. cbn beta in F. rewrite E1 in F. inversion F; subst.
    f_equal. unfold see_conf. rewrite N1, N2. f_equal. clear - Fa. induction Fa as [|a a' l l' [Q _] _ IH]; simpl; congruence.
  - eapply see_on_att; [exact H|]. intros d b9 d' at' Id E.
    exact (see_added y p (mg_main m) d (ds_att (mg_doms m)) d' at' b9 Hst Ho (proj1 (locate_sound _ _ _ Lo)) L (Ki d Id) (ds_link y _ d K Id) (ds_att_once _ _ K) E).
  - eapply see_on_att; [exact H|]. intros d b9 d' at' Id E.
    exact (see_removed y p d (ds_att (mg_doms m)) d' at' b9 (Ki d Id) (ds_link y _ d K Id) (ds_att_once _ _ K) E).
  - eapply see_on_att; [exact H|]. intros d b9 d' at' Id E. destruct (dm_split y p d (ds_att (mg_doms m))) as [[bs [ds ats]]| | |] eqn:E1; [|cbn beta in E; rewrite E1 in E; discriminate E..]. cbn beta in E. rewrite E1 in E. cbn [obind snd] in E. inversion E; subst.
    f_equal. exact (see_splitted y p d (ds_att (mg_doms m)) d' at' bs Hst Ho (Ki d Id) (ds_link y _ d K Id) (ds_att_once _ _ K) E1).
  - eapply see_on; [exact H|]. intros d b9 d' Id E. eapply see_on_conf; [exact E|]. intros c b1 c' Ic F.
    destruct (see_set_sequence y paths c (paths_distinct y d c Nm (Ki d Id) Ic)) as [A B]. inversion F as [F']. rewrite F' in A, B. cbn [fst snd] in A, B. cbn zeta. rewrite A, B. auto.
  - eapply see_on; [exact H|]. intros d b9 d' Id E. eapply see_on_conf; [exact E|]. intros c b1 c' Ic F.
    destruct (set_application_rule (mg_crits m) text (cf_rule c)) as [[b2 r]| | |] eqn:E1; cbn beta in F; rewrite E1 in F; try discriminate F. cbn [obind fst snd] in F. injection F as <- <-.
    apply set_rule_parsed in E1. cbn [parsed_of]. destruct (parse_text (mg_crits m) text); destruct E1 as [-> ->]; try reflexivity; destruct c; reflexivity.
  - eapply see_on; [exact H|]. intros d b9 d' Id E. eapply see_on_conf; [exact E|]. intros c b1 c' Ic F. inversion F; subst. auto.
Qed.

(** ** The other commands *)

Lemma see_applied : forall cs force l, map see_dom (map (applied cs force) l) = map see_dom l.
Proof. intros. rewrite map_map. apply map_ext. intros d. unfold applied. destruct (dm_applicable cs d); [|destruct force]; auto. Qed.

Lemma see_apply : forall y force need m m', structure_ok y -> mgr_ok y m -> do_apply y force need m = Ok m' -> see m' = see m.
Proof. intros y force need m m' Hst K H. destruct (do_apply_inv _ _ _ _ _ Hst K H) as [D _]. unfold see. rewrite D. cbn [ds_list]. apply see_applied. Qed.

Lemma pick_inv : forall (A : Type) (f : A -> bool) l l1 x l2, pick f l = Some (l1, x, l2) -> l = l1 ++ x :: l2.
Proof.
  intros A f l. induction l as [|k l IH]; intros l1 x l2 H; cbn [pick] in H; [discriminate|]. destruct (f k); [inversion H; auto|].
  destruct (pick f l) as [[[a z] w]|] eqn:E; inversion H; subst. simpl. f_equal. apply (IH a x l2). auto.
Qed.

Lemma see_edit : forall dom name p bb s b s', ds_edit dom name p bb s = Ok (b, s') -> map see_dom (ds_list s') = map see_dom (ds_list s).
Proof.
  intros dom name p bb s b s' H.
  assert (E : on_dom dom (on_conf name (fun c => (true, c))) (map see_dom (ds_list s)) = (b, map see_dom (ds_list s'))).
  { eapply see_on; [exact H|]. intros d b1 d' _ E. eapply see_on_conf; [exact E|]. intros c b2 c' _ F. inversion F; subst. f_equal. unfold see_conf, cf_edit. cbn [cf_name cf_rule cf_areas with_areas]. f_equal.
    rewrite map_map. apply map_ext. intros a. destruct (pos_eqb (ar_pos a) p); auto. }
  unfold on_dom in E. destruct (pick (dom_called dom) (map see_dom (ds_list s))) as [[[l1 d] l2]|] eqn:P; [|inversion E; auto].
  unfold on_conf in E. apply pick_inv in P. rewrite P.
  destruct (pick (conf_called name) (vd_confs d)) as [[[c1 c] c2]|] eqn:Q; [|inversion E; auto]. apply pick_inv in Q.
  cbn [fst snd] in E. inversion E as [[B1 B2]]. f_equal. f_equal. unfold vd_with. rewrite <- Q. destruct d; auto.
Qed.

Lemma see_restore : forall y n k a s main tr b s' main' errs tr', structure_ok y -> domains_ok y s -> List.length main = footprint (sy_root y) ->
  ds_restore y n k a s main tr = Ok (b, s', main', errs, tr') -> map see_dom (ds_list s') = map see_dom (ds_list s).
Proof.
  intros y n k a s main tr b s' main' errs tr' Hst K L H. destruct (ds_restore_spec y n k a s main tr Hst K L) as [b1 [s1 [m1 [e1 [t1 [E [_ [_ [_ [A [B C]]]]]]]]]]].
  rewrite E in H. inversion H; subst. destruct (ds_find n s) as [d|] eqn:F; [|destruct (A eq_refl) as [_ [-> _]]; auto].
  destruct (dm_find k d) as [c|] eqn:G; [|destruct (B d eq_refl G) as [_ [-> _]]; auto].
  destruct (C d c eq_refl G) as [l1 [l2 [ev [El [-> _]]]]]. cbn [ds_list]. rewrite El, !map_app. auto.
Qed.

Lemma other_step : forall y m c b m', system_ok y -> mgr_ok y m -> editing c = false -> step y m c = Ok (b, m') -> see m' = see m.
Proof.
  intros y m c b m' [Hst Ho] M Ed H. pose proof M as [K [V L]].
  destruct c; try discriminate Ed; clear Ed; cbn [step] in H.
  - apply tuned_inv in H. destruct H as [[_ [_ ->]]|[_ H]]; auto. apply set_live_inv in H. unfold see. destruct H as [-> _]. auto.
  - unfold set_recorded in H. destruct (locate (sy_root y) path) as [p|]; [|injection H as <- <-; auto].
    destruct (ds_find_blackboard _ _ _ _) as [[[d c] g]|]; [|injection H as <- <-; auto].
    destruct (access_set _ _ _ _ _ _) as [[ok bb]| | |]; try discriminate. cbn [obind fst snd] in H.
    destruct (ds_edit _ _ _ _ _) as [[b1 s1]| | |] eqn:E; try discriminate. cbn [obind fst snd] in H. apply see_edit in E.
    destruct ok; [destruct (is_last d c)|].
    + apply set_live_inv in H. destruct H as [D _]. unfold see. rewrite D. auto.
    + injection H as <- <-. auto.
    + injection H as <- <-. auto.
  - unfold set_tuning in H. destruct (Bool.eqb _ _); [injection H as <- <-; auto|]. destruct (_ && _); [injection H as <- <-; auto|].
    destruct on; [injection H as <- <-; auto|]. destruct (do_apply y true _ m) as [m1| | |] eqn:E; try discriminate. cbn [obind] in H. injection H as <- <-. apply see_apply in E; auto.
  - injection H as H. unfold set_autosync, do_sync in H. destruct (on && negb (mg_autosync m)).
    + destruct (mg_autosync m); [injection H as <- <-; auto|]. destruct (sync_set _ _ _ _) as [[ok er] tr]. destruct ok; injection H as <- <-; auto.
    + injection H as <- <-; auto.
  - injection H as H. unfold do_sync in H. destruct (mg_autosync m); [injection H as <- <-; auto|]. destruct (sync_set _ _ _ _) as [[ok er] tr]. injection H as <- <-; auto.
  - injection H as <- <-; auto.
  - injection H as <- <-; auto.
  - apply tuned_inv in H. destruct H as [[_ [_ ->]]|[_ H]]; auto. destruct (ds_restore _ _ _ _ _ _ _) as [[[[[b1 s1] bb] er] tr]| | |] eqn:E; try discriminate. cbn [obind] in H. injection H as <- <-.
    unfold see. cbn [mg_doms with_trace with_main with_doms]. exact (see_restore _ _ _ _ _ _ _ _ _ _ _ _ Hst K L E).
  - unfold apply_configurations in H. destruct (mg_tuning m); [injection H as <- <-; auto|]. destruct (do_apply y false _ m) as [m1| | |] eqn:E; try discriminate. cbn [obind] in H. injection H as <- <-. apply see_apply in E; auto.
  - injection H as <- <-; auto.
  - apply handle_set_keeps in H. unfold see. destruct H as [_ [_ [_ ->]]]. auto.
  - apply handle_bytes_keeps in H. unfold see. destruct H as [_ [_ [_ ->]]]. auto.
Qed.
