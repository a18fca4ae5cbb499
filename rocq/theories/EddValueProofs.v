(** Proofs: the values recorded when the commands of an EDD file are carried out. *)
From Coq Require Import List Arith ZArith Bool Ascii String Lia Permutation.
From Verif Require Import Base BaseProofs CriterionModel RuleModel RuleSpec RuleProofs TreeModel TreeSpec TreeProofs MemSpec MemProofs SyncModel DomainModel DomainSpec DomainInv DomainProofs DomainsInv MgrModel MgrSpec MgrProofs
  SyncProofs MgrFlow MgrSkel ApplySpec ApplyProofs ValueSpec ValueProofs ReadProofs ApplyMore ConfigSpec ConfigProofs ConfigProofs2 DomXmlRound EditProofs
  XmlModel DomXmlModel DomXmlSpec DomXmlHist CatSpec CatProofs DocProofs RemoteModel RemoteSpec CommandModel CommandSpec ReportModel ReportSpec GenModel GenSpec EddModel EddSpec EddProofs EddLineProofs EddMeanProofs EddRunSpec EddRunProofs.
Import ListNotations.
Local Open Scope nat_scope.

Definition rest (D : str) (m : mgr) : Prop := forall d, ds_find D (mg_doms m) = Some d -> dm_last d = None.

Lemma find_replace : forall A (f : A -> bool) l1 x x' l2 z', f x' = f x -> find f (l1 ++ x' :: l2) = Some z' ->
  find f (l1 ++ x :: l2) = Some z' \/ (find f (l1 ++ x :: l2) = Some x /\ z' = x').
Proof.
  intros A f. induction l1 as [|a l1 IH]; intros x x' l2 z' E H; cbn [app find] in *.
  - rewrite E in H. destruct (f x); [injection H as <-; auto|auto].
  - destruct (f a); auto.
Qed.

Lemma rest_on : forall D n f s b s', ds_on n f s = Ok (b, s') ->
  (forall d b d', f d = Ok (b, d') -> dm_name d' = dm_name d /\ dm_last d' = dm_last d) ->
  (forall d, ds_find D s = Some d -> dm_last d = None) -> forall d, ds_find D s' = Some d -> dm_last d = None.
Proof.
  intros D n f s b s' H Hf R d' F. destruct (ds_on_cases _ _ _ _ _ H) as [[_ [_ ->]]|[l1 [d [l2 [d1 [E1 [E2 [E3 [E4 ->]]]]]]]]]; [auto|].
  destruct (Hf _ _ _ E4) as [N L]. unfold ds_find in F, R. cbn [ds_list] in F. rewrite E2 in R.
  destruct (find_replace _ (fun z => str_eqb (dm_path_name z) D) l1 d d1 l2 d') as [X|[X ->]]; [cbv beta; unfold dm_path_name; rewrite N; reflexivity|exact F|auto|]. rewrite L. auto.
Qed.

Lemma on_config_keeps : forall n f d b d', dm_on_config n f d = Ok (b, d') -> dm_name d' = dm_name d /\ dm_last d' = dm_last d.
Proof. intros n f d b d' H. destruct (dm_on_config_cases _ _ _ _ _ H) as [[_ [_ ->]]|[l1 [c [l2 [c' [_ [_ [_ [_ ->]]]]]]]]]; auto. Qed.

Lemma rest_step : forall y m c m' D, system_ok y -> history y m -> scripted c = true -> step y m c = Ok (true, m') -> rest D m -> rest D m'.
Proof.
  intros y m c m' D Sy Hh Sc H R. destruct (history_sound y m Sy Hh) as [K _]. unfold rest in *.
  destruct c; try discriminate Sc; clear Sc; pose proof H as H0; cbn [step] in H;
    try (apply tuned_inv in H; destruct H as [[_ [X _]]|[_ H]]; [discriminate X|]);
    try (apply on_doms_inv in H; destruct H as [s [H ->]]; cbn [mg_doms with_doms]).
  - unfold set_recorded in H. destruct (locate (sy_root y) path) as [p|]; [|discriminate H].
    destruct (ds_find_blackboard _ _ _ _) as [[[d1 c1] g]|]; [|discriminate H].
    destruct (access_set _ _ _ _ _ _) as [[ok bb]| | |]; try discriminate H. cbn [obind fst snd] in H.
    destruct (ds_edit _ _ _ _ _) as [[b1 s1]| | |] eqn:E; try discriminate H. cbn [obind fst snd] in H.
    assert (mg_doms m' = s1) as ->.
    { destruct ok; [|discriminate H]. destruct (is_last d1 c1); [|injection H as <-; reflexivity]. apply set_live_inv in H. destruct H as [-> _]. reflexivity. }
    unfold ds_edit in E. eapply rest_on; [exact E| |exact R]. intros d b d' X. eapply on_config_keeps. exact X.
  - intros d F. unfold ds_create in H. destruct (ds_find name (mg_doms m)) eqn:E; [discriminate H|]. injection H as <-.
    unfold ds_find in F. cbn [ds_list] in F. rewrite find_app_l in F. destruct (find _ (ds_list (mg_doms m))) as [z|] eqn:Z.
    + injection F as <-. apply R. exact Z.
    + cbn [find] in F. destruct (str_eqb _ D); [|discriminate F]. injection F as <-. reflexivity.
  - eapply rest_on; [exact H| |exact R]. intros d b0 d' X. injection X as _ <-. auto.
  - eapply rest_on; [exact H| |exact R]. intros d b d' X. unfold dm_create_config in X. destruct (dm_find conf d); [injection X as _ <-; auto|].
    destruct (omap_list _ _) as [areas| | |]; try discriminate X. cbn [obind] in X.
    destruct (match dm_configs d with [] => _ | _ => _ end) as [c'| | |]; try discriminate X. injection X as _ <-. auto.
  - intros d' F. destruct (str_eqb dom D) eqn:E.
    + apply str_eqb_eq in E. subst D. destruct (ds_find dom (mg_doms m)) as [d|] eqn:Fd.
      * destruct (add_effect y m dom path m' true d Sy K H0 Fd) as [_ [_ [_ [d1 [F1 [[L _] _]]]]]]. rewrite F1 in F. injection F as <-. rewrite L. auto.
      * exfalso. unfold on_located in H. destruct (locate _ path); [|discriminate H]. apply on_doms_inv in H. destruct H as [s [H ->]]. unfold ds_add, ds_on_att in H. rewrite Fd in H. discriminate H.
    + destruct (ds_find dom (mg_doms m)) as [d|] eqn:Fd.
      * destruct (add_effect y m dom path m' true d Sy K H0 Fd) as [_ [_ [O _]]]. apply R. rewrite <- O; [exact F|]. intros ->. rewrite (proj2 (str_eqb_eq _ _) eq_refl) in E. discriminate E.
      * exfalso. unfold on_located in H. destruct (locate _ path); [|discriminate H]. apply on_doms_inv in H. destruct H as [s [H ->]]. unfold ds_add, ds_on_att in H. rewrite Fd in H. discriminate H.
  - eapply rest_on; [exact H| |exact R]. intros d b d' X. eapply on_config_keeps. exact X.
  - eapply rest_on; [exact H| |exact R]. intros d b d' X. eapply on_config_keeps. exact X.
Qed.

(** The value of the parameter at [q] in a configuration: what reading it from its memory gives. *)
Definition recorded (y : system) (D C s : str) (q : list nat) (r : outcome str) (m : mgr) : Prop :=
  rest D m /\ exists d c bb va, ds_find D (mg_doms m) = Some d /\ dm_find C d = Some c /\ In q (dm_elems d) /\ In (Area q bb va) (cf_areas c)
    /\ access_get (sy_root y) (mg_fmt m) s (offset (sy_root y) q) bb = r.

(** The command leaves this value alone. *)
Definition leaves (y : system) (D C : str) (q : list nat) (c : cmd) : Prop :=
  spares D C c \/ exists s x, c = CSetConfigParameter D C s x /\ locate (sy_root y) s <> Some q.

Lemma param_above : forall y p e q, system_ok y -> param_at (sy_root y) p e -> elem_at (sy_root y) q <> None -> above p q -> q = p.
Proof.
  intros y p e q Sy Hp Hq [r ->]. apply (param_under y p e (p ++ r) Sy Hp Hq). clear. induction p as [|i p IH]; cbn [CatSpec.under app]; [reflexivity|]. rewrite Nat.eqb_refl. exact IH.
Qed.

Lemma recorded_step : forall y D C s q e r c m m', system_ok y -> names_ok (sy_root y) -> history y m -> mg_tuning m = true -> param_at (sy_root y) q e -> scripted c = true -> leaves y D C q c ->
  step y m c = Ok (true, m') -> recorded y D C s q r m -> recorded y D C s q r m'.
Proof.
  intros y D C s q e r c m m' Sy Nm Hh T Pq Sc Lv H [R [d [k [bb [va [Fd [Fc [Iq [Ia G]]]]]]]]].
  pose proof (rest_step _ _ _ _ D Sy Hh Sc H R) as R'. split; [exact R'|].
  destruct (scripted_step y m c m' Sy Nm Hh T Sc H) as [Hh' [_ [_ [Fm _]]]]. rewrite Fm.
  destruct (history_sound y m Sy Hh) as [K _]. destruct (history_sound y m' Sy Hh') as [K' _].
  destruct Lv as [Sp|[s2 [x2 [-> N]]]].
  - destruct (step_designates y m c true m' D C (dm_elems d) (cf_areas k) Sy K Sp H) as [d' [k' [F1 [F2 [F3 F4]]]]]; [exists d, k; auto|].
    exists d', k', bb, va. rewrite F3, F4. auto.
  - destruct (set_is_param _ _ _ _ _ _ _ Sy H) as [q2 [L2 [e2 P2]]].
    assert (covers d q2) as Cv.
    { cbn [step] in H. unfold set_recorded in H. rewrite L2 in H. destruct (ds_find_blackboard _ _ _ _) as [[[d1 c1] g]|] eqn:B; [|discriminate H].
      destruct (find_blackboard_spec y _ _ _ _ _ _ _ (proj1 K) B) as [X1 [_ [X2 [X3 _]]]]. rewrite Fd in X1. injection X1 as <-. exists g. auto. }
    destruct (edit_effect y m D C s2 x2 q2 e2 d k true m' Sy K L2 P2 Fd Fc Cv H) as [a [ok [bb2 [d' [c' [Ha [Ab [_ [F1 [F2 [F3 [_ [_ [F5 _]]]]]]]]]]]]]].
    exists d', c', bb, va. split; [exact F1|]. split; [exact F2|]. rewrite F3. split; [exact Iq|]. split; [|exact G].
    rewrite F5. apply in_map_iff. exists (Area q bb va). split; [|exact Ia]. cbn [ar_pos]. destruct (pos_eqb q (ar_pos a)) eqn:Eq; [|reflexivity].
    exfalso. apply pos_eqb_eq in Eq. apply N. rewrite L2. f_equal. rewrite <- Eq in Ab. apply (param_above y q e); auto. destruct P2 as [P2 _]. congruence.
Qed.

Lemma recorded_kept : forall y D C s q e r cmds m m', system_ok y -> names_ok (sy_root y) -> history y m -> mg_tuning m = true -> param_at (sy_root y) q e ->
  Forall (fun c => scripted c = true) cmds -> Forall (leaves y D C q) cmds -> succeed y m cmds m' -> recorded y D C s q r m -> recorded y D C s q r m'.
Proof.
  intros y D C s q e r. induction cmds as [|c cmds IH]; intros m m' Sy Nm Hh T Pq Sc Lv H Re; inversion H as [|? ? m1 ? ? H1 H2]; subst; [exact Re|].
  destruct (scripted_step y m c m1 Sy Nm Hh T (Forall_inv Sc) H1) as [A1 [A2 _]].
  apply (IH m1 m' Sy Nm A1 A2 Pq (Forall_inv_tail Sc) (Forall_inv_tail Lv) H2). exact (recorded_step y D C s q e r c m m1 Sy Nm Hh T Pq (Forall_inv Sc) (Forall_inv Lv) H1 Re).
Qed.

Lemma rest_kept : forall y D cmds m m', system_ok y -> names_ok (sy_root y) -> history y m -> mg_tuning m = true ->
  Forall (fun c => scripted c = true) cmds -> succeed y m cmds m' -> rest D m -> rest D m'.
Proof.
  intros y D. induction cmds as [|c cmds IH]; intros m m' Sy Nm Hh T Sc H Re; inversion H as [|? ? m1 ? ? H1 H2]; subst; [exact Re|].
  destruct (scripted_step y m c m1 Sy Nm Hh T (Forall_inv Sc) H1) as [A1 [A2 _]].
  apply (IH m1 m' Sy Nm A1 A2 (Forall_inv_tail Sc) H2). exact (rest_step y m c m1 D Sy Hh (Forall_inv Sc) H1 Re).
Qed.

(** What is recorded after setConfigurationParameter, in a domain of parameters. *)
Lemma recorded_set : forall y D C s x m m', system_ok y -> names_ok (sy_root y) -> history y m -> mg_tuning m = true -> rest D m ->
  (forall d p, ds_find D (mg_doms m) = Some d -> In p (dm_elems d) -> exists e, param_at (sy_root y) p e) ->
  step y m (CSetConfigParameter D C s x) = Ok (true, m') ->
  exists q e bb0 bb, locate (sy_root y) s = Some q /\ param_at (sy_root y) q e /\ List.length bb0 = storage_size e
    /\ access_set (sy_root y) (mg_fmt m) s x (offset (sy_root y) q) bb0 = Ok (true, bb)
    /\ recorded y D C s q (access_get (sy_root y) (mg_fmt m) s (offset (sy_root y) q) bb) m' /\ D <> [] /\ C <> [].
Proof.
  intros y D C s x m m' Sy Nm Hh T Re Hp H. pose proof (rest_step y m (CSetConfigParameter D C s x) m' D Sy Hh eq_refl H Re) as Re'.
  destruct (scripted_step y m (CSetConfigParameter D C s x) m' Sy Nm Hh T eq_refl H) as [Hh' [_ [_ [Fm _]]]].
  destruct (history_sound y m Sy Hh) as [K _].
  destruct (set_is_param _ _ _ _ _ _ _ Sy H) as [q [L [e P]]].
  assert (exists d c, ds_find D (mg_doms m) = Some d /\ dm_find C d = Some c /\ In q (dm_elems d)) as [d [c [Fd [Fc Iq]]]].
  { cbn [step] in H. unfold set_recorded in H. rewrite L in H. destruct (ds_find_blackboard _ _ _ _) as [[[d c] g]|] eqn:B; [|discriminate H].
    destruct (find_blackboard_spec y _ _ _ _ _ _ _ (proj1 K) B) as [X1 [X2 [X3 [X4 _]]]]. exists d, c. split; [exact X1|]. split; [exact X2|].
    destruct (Hp d g X1 X3) as [e2 P2]. rewrite (param_above y g e2 q Sy P2); auto. destruct P as [P _]. congruence. }
  assert (covers d q) as Cv by (exists q; split; [exact Iq|apply above_refl]).
  destruct (edit_effect y m D C s x q e d c true m' Sy K L P Fd Fc Cv H) as [a [ok [bb [d' [c' [Ha [Ab [Ea [F1 [F2 [F3 [F4 [_ [F5 F6]]]]]]]]]]]]]].
  pose proof (ds_domain _ _ (proj1 K) d (ds_find_In _ _ _ Fd)) as Kd. pose proof (dm_find_In _ _ _ Fc) as Hc. destruct (dk_configs _ _ Kd c Hc) as [Pm Fo].
  assert (ar_pos a = q) as Eq.
  { destruct (Hp d (ar_pos a) Fd) as [e2 P2]; [apply (Permutation_in _ Pm); apply in_map; exact Ha|]. symmetry. apply (param_above y (ar_pos a) e2 q Sy P2); auto. destruct P as [P _]. congruence. }
  assert (ok = true) as -> by (destruct F6 as [[X _]|[_ [X _]]]; auto).
  assert (area_ok (sy_root y) a) as Ka by (rewrite Forall_forall in Fo; auto).
  exists q, e, (ar_bb a), bb. split; [exact L|]. split; [exact P|]. split.
  { destruct Ka as [e2 [E2 L2]]. rewrite Eq in E2. destruct P as [P _]. assert (e2 = e) as -> by congruence. exact L2. }
  split; [rewrite <- Eq; exact Ea|]. split.
  { split; [exact Re'|]. exists d', c', bb, (ar_valid a). split; [exact F1|]. split; [exact F2|]. rewrite F3. split; [exact Iq|]. split.
    - rewrite F5. apply in_map_iff. exists a. rewrite pos_eqb_refl. rewrite Eq. auto.
    - rewrite Fm. reflexivity. }
  split.
  - rewrite <- (ds_found_name _ _ _ Fd). unfold dm_path_name. destruct (dm_name d); discriminate.
  - rewrite <- (dm_found_name _ _ _ Fc). unfold cf_path_name. destruct (cf_name c); discriminate.
Qed.

(** ** Names are given once *)

Lemma pick_none : forall A (f : A -> bool) l x, pick f l = None -> In x l -> f x = false.
Proof.
  intros A f. induction l as [|z l IH]; intros x H I; [destruct I|]. cbn [pick] in H. destruct (f z) eqn:E; [discriminate H|].
  destruct (pick f l) as [[[? ?] ?]|] eqn:P; [discriminate H|]. destruct I as [<-|I]; auto.
Qed.

Lemma goes_by_own : forall kind n, n <> [] -> goes_by kind n n = true.
Proof. intros kind n N. unfold goes_by. destruct n; [contradiction|]. apply str_eqb_eq. reflexivity. Qed.

Lemma conf_fresh : forall y cs w E vs K l l' k, system_ok y -> names_ok (sy_root y) -> pick (dom_called (full_domain w)) l = None ->
  NoDup E -> Forall2 (names_parameter (sy_root y)) (added w) E -> (forall v, In v vs -> Permutation (added w) (elements [] (target v))) ->
  view_run (sy_root y) cs (flat_map (conf_cmds w) vs) (l ++ [VDom (full_domain w) (is_aware w) E K]) = Some l' -> In k K -> vc_name k <> [] ->
  forall v, In v vs -> full_conf v <> vc_name k.
Proof.
  intros y cs w E. induction vs as [|u vs IH]; intros K l l' k Sy Nm P NE FE Pm H Ik Nk v Iv; [destruct Iv|]. cbn [flat_map] in H.
  rewrite view_run_app in H. destruct (view_run _ _ (conf_cmds w u) _) as [l1|] eqn:E1; [|discriminate H].
  destruct (conf_run _ _ _ _ _ _ _ _ Sy Nm P NE FE (Pm u (or_introl eq_refl)) E1) as [c [Hc ->]].
  destruct Iv as [<-|Iv].
  - unfold conf_cmds in E1. cbn [view_run] in E1. unfold view_step in E1 at 1. cbn [editing edit] in E1.
    match type of E1 with context [on_dom ?D ?f ?z] => destruct (on_dom D f z) as [b l2] eqn:E2 end. destruct b; [|discriminate E1].
    destruct (on_dom_last _ _ _ _ _ P E2) as [x' [F1 _]]. cbn [vd_confs] in F1. destruct (pick (conf_called (full_conf u)) K) eqn:Pk; [discriminate F1|].
    pose proof (pick_none _ _ _ _ Pk Ik) as X. intros Y. unfold conf_called in X. rewrite Y in X. rewrite (goes_by_own _ _ Nk) in X. discriminate X.
  - apply (IH (K ++ [c]) l l' k Sy Nm P NE FE (fun z I => Pm z (or_intror I)) H); auto. apply in_app_iff. auto.
Qed.

Lemma dom_fresh : forall y cs ws l l' d, system_ok y -> names_ok (sy_root y) ->
  (forall w, In w ws -> (forall s, In s (added w) -> exists p, names_parameter (sy_root y) s p) /\ (forall v, In v (confs_of w) -> Permutation (added w) (elements [] (target v)))) ->
  view_run (sy_root y) cs (flat_map dom_cmds ws) l = Some l' -> In d l -> vd_name d <> [] -> forall w, In w ws -> full_domain w <> vd_name d.
Proof.
  intros y cs. induction ws as [|u ws IH]; intros l l' d Sy Nm Hw H Id Nd w Iw; [destruct Iw|]. cbn [flat_map] in H.
  rewrite view_run_app in H. destruct (view_run _ _ (dom_cmds u) _) as [l1|] eqn:E1; [|discriminate H].
  destruct (Hw u (or_introl eq_refl)) as [H1 H2]. destruct (domain_run _ _ _ _ _ Sy Nm H1 H2 E1) as [d1 [Hd ->]].
  destruct Iw as [<-|Iw].
  - unfold dom_cmds in E1. cbn [view_run] in E1. unfold view_step in E1 at 1. cbn [editing edit] in E1.
    destruct (pick (dom_called (full_domain u)) l) eqn:P; [discriminate E1|].
    pose proof (pick_none _ _ _ _ P Id) as X. intros Y. unfold dom_called in X. rewrite Y in X. rewrite (goes_by_own _ _ Nd) in X. discriminate X.
  - apply (IH (l ++ [d1]) l' d Sy Nm (fun z I => Hw z (or_intror I)) H); auto. apply in_app_iff. auto.
Qed.

(** ** The commands around a value *)

Definition dom_head (w : place) : list cmd :=
  CCreateDomain (full_domain w) :: (if is_aware w then [CSequenceAware (full_domain w) true] else []) ++ map (CAddElement (full_domain w)) (added w).
Definition conf_head (w v : place) : list cmd :=
  CCreateConfig (full_domain w) (full_conf v) :: CSetRule (full_domain w) (full_conf v) (rule_for v)
  :: (if is_aware w then [CSequence (full_domain w) (full_conf v) (elements [] (target v))] else []).
Definition set_cmds (w v : place) (l : list (str * str)) : list cmd := map (fun s => CSetConfigParameter (full_domain w) (full_conf v) (fst s) (snd s)) l.

Lemma dom_cmds_split : forall w, dom_cmds w = dom_head w ++ flat_map (conf_cmds w) (confs_of w).
Proof. intros w. unfold dom_cmds, dom_head. cbn [app]. rewrite <- app_assoc. reflexivity. Qed.

Lemma conf_cmds_split : forall w v, conf_cmds w v = conf_head w v ++ set_cmds w v (sets (target v)).
Proof. intros w v. unfold conf_cmds, conf_head, set_cmds. cbn [app]. reflexivity. Qed.

Lemma head_run : forall y cs w l l', system_ok y -> (forall s, In s (added w) -> exists p, names_parameter (sy_root y) s p) ->
  view_run (sy_root y) cs (dom_head w) l = Some l' -> pick (dom_called (full_domain w)) l = None
  /\ exists E, l' = l ++ [VDom (full_domain w) (is_aware w) E []] /\ NoDup E /\ Forall2 (names_parameter (sy_root y)) (added w) E.
Proof.
  intros y cs w l l' Sy Hp H. unfold dom_head in H. cbn [view_run] in H. unfold view_step in H at 1. cbn [editing edit] in H.
  destruct (pick (dom_called (full_domain w)) l) eqn:P; [discriminate H|]. split; [reflexivity|].
  rewrite view_run_app in H.
  assert (exists l1, view_run (sy_root y) cs (if is_aware w then [CSequenceAware (full_domain w) true] else []) (l ++ [VDom (full_domain w) false [] []]) = Some l1
            /\ (l1 = l ++ [VDom (full_domain w) (is_aware w) [] []])) as [l1 [V1 ->]].
  { destruct (view_run _ _ (if is_aware w then _ else _) _) as [l1|] eqn:E1; [|discriminate H]. exists l1. split; [reflexivity|].
    destruct (is_aware w); cbn [view_run] in E1; [|injection E1 as <-; reflexivity]. unfold view_step in E1. cbn [editing edit] in E1.
    match type of E1 with context [on_dom ?D ?f ?z] => destruct (on_dom D f z) as [b l2] eqn:Eo end. destruct b; [|discriminate E1]. injection E1 as <-.
    destruct (on_dom_last _ _ _ _ _ P Eo) as [x' [F1 ->]]. injection F1 as <-. reflexivity. }
  rewrite V1 in H.
  destruct (add_run y cs (full_domain w) (is_aware w) (added w) [] l l' Sy P Hp (fun q (I : In q []) => match I with end) (NoDup_nil _) H) as [ps [F [-> [He Nd]]]].
  exists ps. auto.
Qed.

Lemma succeed_split : forall y a b m m' root cs, root = sy_root y -> cs = mg_crits m -> system_ok y -> names_ok (sy_root y) -> history y m -> mg_tuning m = true -> Forall (fun c => scripted c = true) (a ++ b) ->
  succeed y m (a ++ b) m' -> exists m1, succeed y m a m1 /\ succeed y m1 b m' /\ history y m1 /\ mg_tuning m1 = true /\ mg_crits m1 = mg_crits m /\ mg_fmt m1 = mg_fmt m
    /\ view_run root cs a (see m) = Some (see m1) /\ view_run root cs b (see m1) = Some (see m').
Proof.
  intros y a b m m' root cs -> -> Sy Nm Hh T Sc H. apply succeed_app in H. destruct H as [m1 [A B]]. apply Forall_app in Sc. destruct Sc as [Sa Sb].
  destruct (view_succeed y a m m1 Sy Nm Hh T Sa A) as [A1 [A2 [A3 [A4 A5]]]]. destruct (view_succeed y b m1 m' Sy Nm A1 A2 Sb B) as [_ [_ [_ [_ B5]]]].
  exists m1. rewrite <- A3. split; [exact A|]. split; [exact B|]. split; [exact A1|]. split; [exact A2|]. split; [reflexivity|]. split; [exact A4|]. split; [rewrite A3; exact A5|exact B5].
Qed.

Lemma value_kept : forall y ws1 w ws2 vs1 v vs2 s1 s x s2 m m', system_ok y -> names_ok (sy_root y) -> history y m -> mg_tuning m = true ->
  (forall z, In z (ws1 ++ w :: ws2) -> (forall s, In s (added z) -> exists p, names_parameter (sy_root y) s p) /\ (forall v, In v (confs_of z) -> Permutation (added z) (elements [] (target v)))) ->
  (Permutation (added w) (map fst (sets (target v)))) ->
  confs_of w = vs1 ++ v :: vs2 -> sets (target v) = s1 ++ (s, x) :: s2 -> succeed y m (flat_map dom_cmds (ws1 ++ w :: ws2)) m' ->
  exists q e bb0 bb, locate (sy_root y) s = Some q /\ param_at (sy_root y) q e /\ List.length bb0 = storage_size e
    /\ access_set (sy_root y) (mg_fmt m) s x (offset (sy_root y) q) bb0 = Ok (true, bb)
    /\ recorded y (full_domain w) (full_conf v) s q (access_get (sy_root y) (mg_fmt m) s (offset (sy_root y) q) bb) m'.
Proof.
  intros y ws1 w ws2 vs1 v vs2 s1 s x s2 m m' Sy Nm Hh T Hw Ps Ev Es H.
  pose proof (scripted_cmds (ws1 ++ w :: ws2)) as Sc. set (D := full_domain w) in *. set (C := full_conf v) in *.
  rewrite flat_map_app in H, Sc. cbn [flat_map] in H, Sc. rewrite dom_cmds_split, Ev, flat_map_app in H, Sc. cbn [flat_map] in H, Sc.
  rewrite conf_cmds_split, Es in H, Sc. unfold set_cmds in H, Sc. rewrite map_app in H, Sc. cbn [map fst snd] in H, Sc. fold (set_cmds w v s1) in H, Sc. fold (set_cmds w v s2) in H, Sc.
  destruct (succeed_split y _ _ m m' _ _ eq_refl eq_refl Sy Nm Hh T Sc H) as [m1 [A1 [H1 [Hh1 [T1 [C1 [F1 [V1 _]]]]]]]]. apply Forall_app in Sc. destruct Sc as [Sc1 Sc].
  rewrite <- !app_assoc in H1, Sc.
  destruct (succeed_split y _ _ m1 m' _ _ eq_refl eq_refl Sy Nm Hh1 T1 Sc H1) as [m2 [A2 [H2 [Hh2 [T2 [C2 [F2 [V2 _]]]]]]]]. apply Forall_app in Sc. destruct Sc as [Sc2 Sc].
  destruct (succeed_split y _ _ m2 m' _ _ eq_refl eq_refl Sy Nm Hh2 T2 Sc H2) as [m3 [A3 [H3 [Hh3 [T3 [C3 [F3 [V3 _]]]]]]]]. apply Forall_app in Sc. destruct Sc as [Sc3 Sc].
  destruct (succeed_split y _ _ m3 m' _ _ eq_refl eq_refl Sy Nm Hh3 T3 Sc H3) as [m4 [A4 [H4 [Hh4 [T4 [C4 [F4 [V4 _]]]]]]]]. apply Forall_app in Sc. destruct Sc as [Sc4 Sc].
  destruct (succeed_split y _ _ m4 m' _ _ eq_refl eq_refl Sy Nm Hh4 T4 Sc H4) as [m5 [A5 [H5 [Hh5 [T5 [C5 [F5 [V5 _]]]]]]]]. apply Forall_app in Sc. destruct Sc as [Sc5 Sc].
  unfold set_cmds in V5. rewrite sets_run in V5. injection V5 as V5.
  cbn [app] in H5, Sc. inversion H5 as [|? ? m6 ? ? S6 H6]; subst. pose proof (Forall_inv Sc) as Scs. apply Forall_inv_tail in Sc.
  destruct (scripted_step y m5 _ m6 Sy Nm Hh5 T5 Scs S6) as [Hh6 [T6 [C6 [F6 V6]]]]. unfold view_step in V6. cbn [editing] in V6. injection V6 as V6.
  destruct (succeed_split y _ _ m6 m' _ _ eq_refl eq_refl Sy Nm Hh6 T6 Sc H6) as [m7 [A7 [H7 [Hh7 [T7 [C7 [F7 [V7 _]]]]]]]]. pose proof Sc as Sc0. apply Forall_app in Sc. destruct Sc as [Sc7 Sc].
  unfold set_cmds in V7. rewrite sets_run in V7. injection V7 as V7.
  destruct (succeed_split y _ _ m7 m' _ _ eq_refl eq_refl Sy Nm Hh7 T7 Sc H7) as [m8 [A8 [H8 [Hh8 [T8 [C8 [F8 [V8 V9]]]]]]]].
  assert (Iw : In w (ws1 ++ w :: ws2)) by (apply in_app_iff; right; left; reflexivity). destruct (Hw w Iw) as [Hp Hv].
  assert (Iv : In v (confs_of w)) by (rewrite Ev; apply in_app_iff; right; left; reflexivity).
  assert (Hv1 : forall z, In z vs1 -> Permutation (added w) (elements [] (target z))) by (intros z I; apply Hv; rewrite Ev; apply in_app_iff; left; exact I).
  assert (Hv2 : forall z, In z vs2 -> Permutation (added w) (elements [] (target z))) by (intros z I; apply Hv; rewrite Ev; apply in_app_iff; right; right; exact I).
  (* what is seen *)
  destruct (head_run _ _ _ _ _ Sy Hp V2) as [Pk [E [S2 [NE FE]]]].
  rewrite S2 in V3. destruct (confs_run _ _ _ _ _ _ _ _ Sy Nm Pk NE FE Hv1 V3) as [ks [_ S3]]. cbn [app] in S3.
  assert (exists k, conf_as_said (sy_root y) (mg_crits m3) w v k /\ see m4 = see m1 ++ [VDom D (is_aware w) E (ks ++ [k])]) as [k [Hk S4]].
  { apply (conf_run y (mg_crits m3) w v E ks (see m1) (see m4) Sy Nm Pk NE FE (Hv v Iv)). rewrite conf_cmds_split, view_run_app. rewrite <- S3, V4. unfold set_cmds. apply sets_run. }
  (* the domain *)
  assert (R1 : rest D m1).
  { intros d Fd. exfalso. assert (In (see_dom d) (see m1)) as I by (apply in_map; exact (ds_find_In _ _ _ Fd)).
    pose proof (pick_none _ _ _ _ Pk I) as X. unfold dom_called in X. pose proof (ds_found_name _ _ _ Fd) as Y. unfold see_dom in X. cbn [vd_name] in X. unfold goes_by in X.
    fold D in X. rewrite <- Y in X. unfold dm_path_name in X. destruct (dm_name d); [|rewrite (proj2 (str_eqb_eq _ _) eq_refl) in X; discriminate X].
    rewrite (proj2 (str_eqb_eq _ _) eq_refl) in X. discriminate X. }
  assert (R5 : rest D m5).
  { apply (rest_kept y D _ m4 m5 Sy Nm Hh4 T4 Sc5 A5). apply (rest_kept y D _ m3 m4 Sy Nm Hh3 T3 Sc4 A4). apply (rest_kept y D _ m2 m3 Sy Nm Hh2 T2 Sc3 A3). apply (rest_kept y D _ m1 m2 Sy Nm Hh1 T1 Sc2 A2). exact R1. }
  assert (Pe : forall d p, ds_find D (mg_doms m5) = Some d -> In p (dm_elems d) -> exists e, param_at (sy_root y) p e).
  { intros d p Fd Ip. assert (In (see_dom d) (see m5)) as I by (apply in_map; exact (ds_find_In _ _ _ Fd)). rewrite <- V5, S4 in I. apply in_app_iff in I. destruct I as [I|[I|[]]].
    - exfalso. pose proof (pick_none _ _ _ _ Pk I) as X. unfold dom_called in X. pose proof (ds_found_name _ _ _ Fd) as Y. unfold see_dom in X. cbn [vd_name] in X. unfold goes_by in X.
      fold D in X. rewrite <- Y in X. unfold dm_path_name in X. destruct (dm_name d); rewrite (proj2 (str_eqb_eq _ _) eq_refl) in X; discriminate X.
    - assert (E = dm_elems d) as -> by (injection I as _ _ I _; exact I). clear - FE Ip. revert Ip. induction FE as [|z p' a E [_ Hp] FE IH]; [intros []|intros [<-|I]; auto]. }
  destruct (recorded_set y D C s x m5 m6 Sy Nm Hh5 T5 R5 Pe S6) as [q [e [bb0 [bb [L [P [Lb [Ea [Re [ND NC]]]]]]]]]].
  assert (Fm : mg_fmt m5 = mg_fmt m) by congruence. rewrite Fm in Ea, Re.
  exists q, e, bb0, bb. split; [exact L|]. split; [exact P|]. split; [exact Lb|]. split; [exact Ea|].
  apply (recorded_kept y D C s q e _ _ m6 m' Sy Nm Hh6 T6 P Sc0); [|exact H6|exact Re].
  apply Forall_app. split; [|apply Forall_app; split].
  - (* the other values *)
    assert (NoDup (map (locate (sy_root y)) (map fst (sets (target v))))) as Nd.
    { apply (Permutation_NoDup (Permutation_map _ Ps)). assert (map (locate (sy_root y)) (added w) = map Some E) as ->.
      { clear - FE. induction FE as [|z p a E [Hz _] FE IH]; cbn [map]; [reflexivity|]. rewrite Hz, IH. reflexivity. }
      apply FinFun.Injective_map_NoDup; [intros a b X; injection X; auto|exact NE]. }
    rewrite Es, !map_app in Nd. cbn [map fst] in Nd. apply NoDup_remove_2 in Nd. rewrite L in Nd.
    apply Forall_forall. intros c I. apply in_map_iff in I. destruct I as [[z xz] [<- I]]. right. exists z, xz. split; [reflexivity|]. intros X. apply Nd. apply in_app_iff. right.
    rewrite <- X. apply in_map. change z with (fst (z, xz)). apply in_map. exact I.
  - (* the other configurations *)
    assert (Fr : forall u, In u vs2 -> full_conf u <> C).
    { intros u Iu. pose proof Hk as [Nk _]. fold C in Nk. rewrite <- Nk. rewrite <- V7, <- V6, <- V5, S4 in V8.
      assert (vc_name k <> []) as NK by (rewrite Nk; exact NC). assert (In k (ks ++ [k])) as Ik by (apply in_app_iff; right; left; reflexivity).
      exact (conf_fresh y _ w E vs2 (ks ++ [k]) (see m1) (see m8) k Sy Nm Pk NE FE Hv2 V8 Ik NK u Iu). }
    apply Forall_forall. intros c I. apply in_flat_map in I. destruct I as [u [Iu I]]. left. unfold conf_cmds in I. destruct I as [<-|[<-|I]]; [exact Logic.I|exact Logic.I|].
    apply in_app_iff in I. destruct I as [I|I]; [destruct (is_aware w); [destruct I as [<-|[]]; cbn [spares]; auto|destruct I]|].
    apply in_map_iff in I. destruct I as [z [<- _]]. cbn [spares]. auto.
  - (* the other domains *)
    assert (Fr : forall u, In u ws2 -> full_domain u <> D).
    { intros u Iu. rewrite <- V7, <- V6, <- V5, S4 in V8.
      destruct (confs_run _ _ _ _ _ _ _ _ Sy Nm Pk NE FE Hv2 V8) as [ks2 [_ S8]].
      refine (dom_fresh y _ ws2 (see m8) (see m') (VDom D (is_aware w) E ((ks ++ [k]) ++ ks2)) Sy Nm _ V9 _ ND u Iu).
      - intros z I. apply Hw. apply in_app_iff. right. right. exact I.
      - rewrite S8. apply in_app_iff. right. left. reflexivity. }
    apply Forall_forall. intros c I. apply in_flat_map in I. destruct I as [u [Iu I]]. specialize (Fr u Iu). left. unfold dom_cmds in I. destruct I as [<-|I]; [exact Logic.I|].
    apply in_app_iff in I. destruct I as [I|I]; [destruct (is_aware u); [destruct I as [<-|[]]; exact Logic.I|destruct I]|].
    apply in_app_iff in I. destruct I as [I|I]; [apply in_map_iff in I; destruct I as [z [<- _]]; exact Fr|].
    apply in_flat_map in I. destruct I as [t [_ I]]. unfold conf_cmds in I. destruct I as [<-|[<-|I]]; [exact Logic.I|exact Logic.I|].
    apply in_app_iff in I. destruct I as [I|I]; [destruct (is_aware u); [destruct I as [<-|[]]; cbn [spares]; auto|destruct I]|].
    apply in_map_iff in I. destruct I as [z [<- _]]. cbn [spares]. auto.
Qed.

Lemma value_read : forall y D C s x q e bb0 bb m0 m, system_ok y -> history y m -> locate (sy_root y) s = Some q -> param_at (sy_root y) q e -> List.length bb0 = storage_size e ->
  access_set (sy_root y) (mg_fmt m0) s x (offset (sy_root y) q) bb0 = Ok (true, bb) -> recorded y D C s q (access_get (sy_root y) (mg_fmt m0) s (offset (sy_root y) q) bb) m ->
  whole (e_kind e) x -> List.length (mg_main m0) = footprint (sy_root y) ->
  exists bb', access_set (sy_root y) (mg_fmt m0) s x 0 (mg_main m0) = Ok (true, bb') /\ get_recorded y D C s m = access_get (sy_root y) (mg_fmt m0) s 0 bb'.
Proof.
  intros y D C s x q e bb0 bb m0 m Sy Hh L P Lb Ea [Re [d [c [bb1 [va [Fd [Fc [Iq [Ia G]]]]]]]]] Wh L0. pose proof Sy as [[W _] _].
  destruct (history_sound y m Sy Hh) as [K _].
  destruct (locate_param _ _ _ W L) as [e' [Ee Pp]]. pose proof (proj1 P) as Eq. assert (e' = e) as -> by congruence. rewrite (proj2 P) in Pp.
  pose proof (param_storage_fits _ _ _ W P) as Fp. rewrite (storage_size_kind e (proj2 P)) in Lb.
  destruct (set_live_ok y s x m0 W L0) as [b1 [m1 [S1 _]]]. destruct (set_live_frame y s x m0 b1 m1 q [] Sy L0 Pp S1) as [_ [[ok1 [A1 _]] _]].
  pose proof A1 as A2. pose proof Ea as Ea2. unfold access_set in A2, Ea2. rewrite Pp, Eq in A2, Ea2.
  destruct (set_then_get (e_kind e) (mg_fmt m0) (mg_fmt m0) x (offset (sy_root y) q) _ _ _ _ _ _ _ _ (param_kind_wf _ _ _ W P) Wh ltac:(rewrite Nat.sub_diag, Lb; apply Nat.le_refl) ltac:(rewrite Nat.sub_0_r, L0; exact Fp) Ea2 A2) as [Eo G2]. subst ok1.
  specialize (G2 eq_refl). exists (mg_main m1). split; [exact A1|].
  assert (covers d q) as Cv by (exists q; split; [exact Iq|apply above_refl]).
  destruct (recorded_area_any y m D C s q e d c Sy K L P Fd Fc Cv) as [a [Ha [Ab [_ [_ E]]]]].
  pose proof (ds_domain _ _ (proj1 K) d (ds_find_In _ _ _ Fd)) as Kd. pose proof (dm_find_In _ _ _ Fc) as Hc.
  assert (a = Area q bb1 va) as -> by (apply (one_area y d c a (Area q bb1 va) q); auto; apply above_refl). cbn [ar_pos ar_bb] in E. rewrite E, G.
  assert (is_last d c = false) as -> by (unfold is_last; rewrite (Re d Fd); reflexivity).
  unfold access_get. rewrite Pp, Eq, G2. cbn [obind]. destruct (leaf_get (e_kind e) (mg_fmt m0) [] (offset (sy_root y) q) 0 (mg_main m1)); reflexivity.
Qed.

Lemma file_values : forall os y need lines doc cmds m bs m', system_ok y -> names_ok (sy_root y) -> history y m -> mg_tuning m = true ->
  parse_edd lines = Ok doc -> Forall operators_ok doc -> edd_script lines = Ok cmds -> Forall (Forall tidy) cmds ->
  all_do os y need m (map as_request cmds) bs m' -> failures bs = 0 ->
  forall w v s x, In w (domains_of doc) -> In v (confs_of w) -> In (s, x) (sets (target v)) ->
  exists q e, names_parameter (sy_root y) s q /\ param_at (sy_root y) q e
    /\ (whole (e_kind e) x -> exists bb, access_set (sy_root y) (mg_fmt m) s x 0 (mg_main m) = Ok (true, bb)
          /\ get_recorded y (full_domain w) (full_conf v) s m' = access_get (sy_root y) (mg_fmt m) s 0 bb).
Proof.
  intros os y need lines doc cmds m bs m' Sy Nm Hh T Hd Ho Hs Ht A B w v s x Iw Iv Is. destruct (even_file _ _ _ Hd Ho Hs) as [He ->]. pose proof (parsed_shaped _ _ Hd) as Sh.
  pose proof (script_succeeds _ _ _ _ _ _ _ Ht A B) as Su.
  destruct (view_succeed y _ m m' Sy Nm Hh T (scripted_cmds _) Su) as [Hh' _].
  assert (Hw : forall z, In z (domains_of doc) -> (forall s, In s (added z) -> exists p, names_parameter (sy_root y) s p) /\ (forall v, In v (confs_of z) -> Permutation (added z) (elements [] (target v)))).
  { intros z Iz. split.
    - intros t It. destruct (added_set doc z t Sh He Iz It) as [u [xu [Iu Ix]]].
      destruct (succeed_In _ _ _ _ _ Su (set_cmd_in _ _ _ _ _ Iz Iu Ix)) as [m1 [m2 E]]. exact (set_is_param _ _ _ _ _ _ _ Sy E).
    - intros u Iu. rewrite (added_sets doc z u Sh He Iz Iu). symmetry. apply elements_sets. }
  pose proof (added_sets doc w v Sh He Iw Iv) as Ps.
  apply in_split in Iw. destruct Iw as [ws1 [ws2 Ew]]. apply in_split in Iv. destruct Iv as [vs1 [vs2 Ev]]. apply in_split in Is. destruct Is as [s1 [s2 Es]].
  rewrite Ew in Hw, Su.
  destruct (value_kept y ws1 w ws2 vs1 v vs2 s1 s x s2 m m' Sy Nm Hh T Hw Ps Ev Es Su) as [q [e [bb0 [bb [L [P [Lb [Ea Re]]]]]]]].
  exists q, e. split; [split; [exact L|exists e; exact P]|]. split; [exact P|]. intros Wh.
  destruct (history_sound y m Sy Hh) as [[_ [_ L0]] _]. exact (value_read y _ _ s x q e bb0 bb m m' Sy Hh' L P Lb Ea Re Wh L0).
Qed.
