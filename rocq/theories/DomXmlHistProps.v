(** What imports of domains do to the other properties: C25, C51, C64; and the exports that do not come back. *)
From Coq Require Import List Arith ZArith QArith Bool Ascii String Lia Permutation.
From Verif Require Import Base BaseProofs TextModel CriterionModel CriterionSpec RuleModel RuleSpec RuleProofs TextSpec ParamTypeModel ParamTypeSpec BlackboardModel BitModel ArrayModel TreeModel TreeSpec
  TreeProofs MemSpec MemProofs SyncModel SyncProofs DomainModel DomainSpec DomainProofs AreaProofs DomainInv DomainApply DomainsInv MgrModel MgrSpec MgrProofs MgrSkel MgrFlow ValueSpec Demo
  XmlDemo XmlModel XmlSpec XmlMgr XmlProps DomXmlModel DomXmlSpec DomXmlInv DomXmlRound DomXmlHist DomXmlProps.
Import ListNotations.
Local Open Scope nat_scope.

(** ** C50: what does not come back *)

(** A rule may ask for several literals of an inclusive criterion at once: their joined value has no literal of its own, and
    is exported as an empty text, which is read as no literal at all. *)
Theorem C50_joined_value_refuted : exists y m x m' r r', system_ok y /\ history y m /\ export_domains y true m = Ok x
  /\ import_domains y true (Some x) m = Ok (true, m')
  /\ map (fun d => map cf_rule (dm_configs d)) (ds_list (mg_doms m)) = [[Some r]]
  /\ map (fun d => map cf_rule (dm_configs d)) (ds_list (mg_doms m')) = [[Some r']]
  /\ rule_matches (crits_set (mg_crits m) 1 3) r = true /\ rule_matches (crits_set (mg_crits m) 1 3) r' = false.
Proof.
  exists xd, (xd_after [CTuning true []; CCreateDomain (lit "D"); CCreateConfig (lit "D") (lit "C"); CSetRule (lit "D") (lit "C") (lit "All{Devices Is Ear|HS}")]).
  eexists. eexists. eexists. eexists.
  split; [exact xd_ok|]. split; [apply xd_history; vm_compute; reflexivity|]. split; [vm_compute; reflexivity|]. split; [vm_compute; reflexivity|].
  split; [vm_compute; reflexivity|]. split; [vm_compute; reflexivity|]. split; [vm_compute; reflexivity|]. vm_compute; reflexivity.
Qed.
Print Assumptions C50_joined_value_refuted.

(** A negative number of an enumeration is exported in raw as the unsigned number of its bits: the import refuses the document
    that the export has just made, and all the domains are lost. *)
Theorem C50_negative_number_refuted : exists y m x m', system_ok y /\ history y m /\ export_domains y true m = Ok x
  /\ import_domains y true (Some x) m = Ok (false, m') /\ ds_list (mg_doms m) <> [] /\ ds_list (mg_doms m') = [].
Proof.
  exists xd, (xd_after (xd_sets ++ [CCreateDomain (lit "D"); CAddElement (lit "D") (lit "/Sys/Sub/neg"); CCreateConfig (lit "D") (lit "C"); CValueSpace true])).
  eexists. eexists.
  split; [exact xd_ok|]. split; [apply xd_history; vm_compute; reflexivity|]. split; [vm_compute; reflexivity|]. split; [vm_compute; reflexivity|].
  split; [vm_compute; discriminate|]. vm_compute; reflexivity.
Qed.
Print Assumptions C50_negative_number_refuted.

Definition node (t : string) (a : list (string * string)) (c : list xnode) : xnode :=
  XElem (lit t) (map (fun p => (lit (fst p), lit (snd p))) a) c.

(** A sequence awareness that is no Boolean: importing the domain alone raises an exception that nothing catches; the schema
    nesting is respected.  Among others, the document is refused. *)
Definition bad_aware : xnode :=
  node "ConfigurableDomain" [("Name", "N"); ("SequenceAware", "maybe")]%string [node "Configurations" [] []; node "ConfigurableElements" [] []].
Theorem C50_awareness_refuted : exists y m x, system_ok y /\ history y m /\ mg_tuning m = true /\ domain_shaped x
  /\ import_domain y true false (Some x) m = Abort.
Proof.
  exists xd, xd_state, bad_aware. split; [exact xd_ok|]. split; [apply xd_history; vm_compute; reflexivity|]. split; [vm_compute; reflexivity|].
  split; [|vm_compute; reflexivity]. split; [reflexivity|]. eexists. eexists. eexists. split; [reflexivity|]. split; [reflexivity|]. split; [reflexivity|]. split; [auto|constructor].
Qed.
Print Assumptions C50_awareness_refuted.

(** A document without the nesting of the schemas, when their validation is off: a child that does not exist is used. *)
Theorem C50_missing_child_refuted : exists y m x, system_ok y /\ history y m /\ mg_tuning m = true /\ import_domains y true (Some x) m = UB.
Proof.
  exists xd, xd_state, (node "ConfigurableDomains" [("SystemClassName", "Sys")]%string [node "ConfigurableDomain" [("Name", "N")]%string []]).
  split; [exact xd_ok|]. split; [apply xd_history; vm_compute; reflexivity|]. split; [vm_compute; reflexivity|]. vm_compute; reflexivity.
Qed.
Print Assumptions C50_missing_child_refuted.

(** ** C25 *)

(** Two domains of the same name in one document are accepted. *)
Definition twins : xnode :=
  let d := node "ConfigurableDomain" [("Name", "N")]%string [node "Configurations" [] []; node "ConfigurableElements" [] []] in
  node "ConfigurableDomains" [("SystemClassName", "Sys")]%string [d; d].
Theorem C25_import_refuted : exists y m x m', system_ok y /\ history y m /\ domains_shaped x /\ import_domains y true (Some x) m = Ok (true, m')
  /\ map dm_name (ds_list (mg_doms m')) = [lit "N"; lit "N"].
Proof.
  exists xd, xd_state, twins. eexists. split; [exact xd_ok|]. split; [apply xd_history; vm_compute; reflexivity|]. split.
  - split; [reflexivity|]. repeat apply Forall_cons; [..|apply Forall_nil];
      (split; [reflexivity|]; eexists; eexists; eexists; split; [reflexivity|]; split; [reflexivity|]; split; [reflexivity|]; split; [auto|constructor]).
  - split; [vm_compute; reflexivity|]. vm_compute; reflexivity.
Qed.
Print Assumptions C25_import_refuted.

(** ** C51 *)

(** Also with imports, every configuration has, for each associated element, one setting, marked valid, of the size of the
    element; single domains must have been imported with settings for all their elements. *)
Theorem C51_after_imports : forall y m d c, system_ok y -> history y m -> In d (ds_list (mg_doms m)) -> In c (dm_configs d) ->
  forall p, In p (dm_elems d) -> exists a, In a (cf_areas c) /\ ar_pos a = p /\ ar_valid a = true
    /\ exists e, elem_at (sy_root y) p = Some e /\ List.length (ar_bb a) = storage_size e.
Proof.
  intros y m d c Sy R Hd Hc p Hp. destruct (history_sound y m Sy R) as [[K [V _]] _]. destruct (dk_configs _ _ (ds_domain _ _ K d Hd) c Hc) as [Pm Fo].
  pose proof (Permutation_in _ (Permutation_sym Pm) Hp) as I. apply in_map_iff in I. destruct I as [a [E Ha]]. exists a. split; auto. split; auto.
  pose proof (V d c Hd Hc) as Va. unfold config_valid in Va. rewrite Forall_forall in Va, Fo. split; auto. rewrite <- E. apply (Fo a Ha).
Qed.
Print Assumptions C51_after_imports.

(** All the commands keep being defined, whatever was imported before. *)
Theorem C51_commands_after_imports : forall y m c, system_ok y -> history y m -> (forall d n t, c <> CSetRule d n t) ->
  exists b m', step y m c = Ok (b, m') /\ history y m'.
Proof.
  intros y m c Sy H N. destruct (history_sound y m Sy H) as [K _]. destruct (step_ok y m c Sy K) as [[b [m' [E _]]]|[_ [d [n [t C]]]]]; [|destruct (N d n t C)].
  exists b, m'. split; auto. eapply hi_step; eauto.
Qed.
Print Assumptions C51_commands_after_imports.

(** A domain imported alone without settings: its settings are never validated, and restoring its configuration zeroes the
    parameters. *)
Theorem C51_single_import_refuted : exists y m x m1 m2 path, system_ok y /\ history y m
  /\ export_domain y false (lit "D") dx = Ok x /\ import_domain y false false (Some x) m = Ok (true, m1)
  /\ step y m1 (CRestore (lit "D") (lit "Call")) = Ok (true, m2)
  /\ get_parameter y path m1 = Ok (lit "-7") /\ get_parameter y path m2 = Ok (lit "0").
Proof.
  exists xd, xd_state. eexists. eexists. eexists. exists (lit "/Sys/Sub/mix/a").
  split; [exact xd_ok|]. split; [apply xd_history; vm_compute; reflexivity|]. split; [vm_compute; reflexivity|]. split; [vm_compute; reflexivity|].
  split; [vm_compute; reflexivity|]. split; [vm_compute; reflexivity|]. vm_compute; reflexivity.
Qed.
Print Assumptions C51_single_import_refuted.

(** Settings missing for one configuration are taken from the first configuration that has some; settings present stay. *)
Theorem C51_missing_settings : forall y d, domain_ok y d -> exists d', dm_auto_validate d = Ok d' /\ dm_elems d' = dm_elems d
  /\ Forall2 (fun c c' => cf_name c' = cf_name c /\ cf_rule c' = cf_rule c
       /\ Forall2 (fun a a' => ar_pos a' = ar_pos a
            /\ (ar_valid a = true -> a' = a)
            /\ (ar_valid a = false ->
                 (exists l1 g l2 b, dm_configs d = l1 ++ g :: l2 /\ In b (cf_areas g) /\ ar_pos b = ar_pos a /\ ar_valid b = true /\ ar_bb a' = ar_bb b /\ ar_valid a' = true
                    /\ forall k z, In k l1 -> In z (cf_areas k) -> ar_pos z = ar_pos a -> ar_valid z = false)
                 \/ (a' = a /\ forall k z, In k (dm_configs d) -> In z (cf_areas k) -> ar_pos z = ar_pos a -> ar_valid z = false)))
            (cf_areas c) (cf_areas c'))
       (dm_configs d) (dm_configs d').
Proof.
  intros y d K. destruct (auto_validate_ok y d K) as [d' [E [K' [[_ [Ee _]] [[_ [_ [_ [_ Sh]]]] F]]]]]. exists d'. split; auto. split; auto.
  assert (forall c a, In c (dm_configs d) -> In a (cf_areas c) -> In (ar_pos a) (dm_elems d)) as Ip.
  { intros c a Hc Ha. destruct (dk_configs _ _ K c Hc) as [Pm _]. apply (Permutation_in _ Pm). apply in_map. auto. }
  assert (forall p, In p (dm_elems d) -> (exists b, first_valid p (dm_configs d) b) \/ none_valid p (dm_configs d)) as Df.
  { intros p Hp. destruct (find_valid_spec (sy_root y) (dm_elems d) p (proj1 (dk_separate _ _ K)) Hp (dm_configs d) (dk_configs _ _ K)) as [[_ N]|[l1 [g [l2 [b [E1 [_ [I1 [P1 [V1 N1]]]]]]]]]]; auto.
    left. exists b, l1, g, l2. auto. }
  assert (forall p, In p (dm_elems d) -> forall a a', ar_pos a = p -> filled (dm_configs d) a a' ->
    ar_pos a' = ar_pos a /\ (ar_valid a = true -> a' = a)
            /\ (ar_valid a = false ->
                 (exists l1 g l2 b, dm_configs d = l1 ++ g :: l2 /\ In b (cf_areas g) /\ ar_pos b = ar_pos a /\ ar_valid b = true /\ ar_bb a' = ar_bb b /\ ar_valid a' = true
                    /\ forall k z, In k l1 -> In z (cf_areas k) -> ar_pos z = ar_pos a -> ar_valid z = false)
                 \/ (a' = a /\ forall k z, In k (dm_configs d) -> In z (cf_areas k) -> ar_pos z = ar_pos a -> ar_valid z = false))) as Fi.
  { intros p Hp a a' Ea [F1 [F2 F3]]. split; auto. split; auto. intros V. destruct (F3 V) as [G1 G2]. rewrite Ea in *. destruct (Df p Hp) as [[b Fb]|N].
    - left. pose proof (G1 b Fb) as ->. destruct Fb as [l1 [g [l2 [Q1 [Q2 [Q3 [Q4 Q5]]]]]]]. exists l1, g, l2, b. cbn [ar_bb ar_valid]. repeat split; auto.
    - right. split; auto. }
  assert (forall l l' : list config, Forall2 same_head l l' -> Forall2 (fun c c' => Forall2 (filled (dm_configs d)) (cf_areas c) (cf_areas c')) l l' ->
    Forall2 (fun c c' => same_head c c' /\ Forall2 (filled (dm_configs d)) (cf_areas c) (cf_areas c')) l l') as Both.
  { intros l l' S1. induction S1; intros S2; inversion S2; subst; constructor; auto. }
  eapply Forall2_impl2; [|exact (Both _ _ Sh F)]. intros c c' Hc [[_ [S2 S3]] Fc]. split; auto. split; auto.
  eapply Forall2_impl2; [|exact Fc]. intros a a' Ha Fa. apply (Fi (ar_pos a)); auto. apply (Ip c); auto.
Qed.
Print Assumptions C51_missing_settings.


(** ** C64 *)

(** A refused import of all the domains deletes them. *)
Theorem C64_all_refuted : exists y m x m', system_ok y /\ history y m /\ import_domains y true (Some x) m = Ok (false, m')
  /\ ds_list (mg_doms m) <> [] /\ ds_list (mg_doms m') = [].
Proof.
  exists xd, dx, (node "ConfigurableDomains" [("SystemClassName", "Other")]%string []). eexists.
  split; [exact xd_ok|]. split; [apply xd_history; vm_compute; reflexivity|]. split; [vm_compute; reflexivity|]. split; [vm_compute; discriminate|]. vm_compute; reflexivity.
Qed.
Print Assumptions C64_all_refuted.

(** A text that is no XML, or a request outside of the tuning mode, changes nothing. *)
Theorem C64_not_xml : forall y m ws overwrite, import_domains y ws None m = Ok (false, m) /\ import_domain y ws overwrite None m = Ok (false, m).
Proof. intros y m ws ov. unfold import_domains, import_domain, tuned. destruct (mg_tuning m); auto. Qed.
Print Assumptions C64_not_xml.
Theorem C64_not_tuning : forall y m ws overwrite doc, mg_tuning m = false ->
  import_domains y ws doc m = Ok (false, m) /\ import_domain y ws overwrite doc m = Ok (false, m).
Proof. intros y m ws ov doc T. unfold import_domains, import_domain, tuned. rewrite T. auto. Qed.
Print Assumptions C64_not_tuning.

(** A refused import of one domain leaves the domains and their elements as they were, whatever the document; an accepted one
    adds one domain, with the name that the document gives, at the end, and takes away at most the first one of that name,
    when that was asked. *)
Theorem C64_single : forall y m ws overwrite x b m', system_ok y -> history y m -> import_domain y ws overwrite (Some x) m = Ok (b, m') ->
  m' = with_doms m (mg_doms m')
  /\ (b = false -> ds_list (mg_doms m') = ds_list (mg_doms m) /\ forall p id, In (p, id) (ds_att (mg_doms m')) <-> In (p, id) (ds_att (mg_doms m)))
  /\ (b = true -> mg_tuning m = true /\ exists d, dm_name d = x_name x /\
        ((ds_find (dm_name d) (mg_doms m) = None /\ ds_list (mg_doms m') = ds_list (mg_doms m) ++ [d])
         \/ exists l1 d0 l2, overwrite = true /\ ds_find (dm_name d) (mg_doms m) = Some d0 /\ ds_list (mg_doms m) = l1 ++ d0 :: l2 /\ ds_list (mg_doms m') = l1 ++ l2 ++ [d])).
Proof.
  intros y m ws ov x b m' Sy H E. pose proof (history_sound y m Sy H) as [[K [V L]] [R C]].
  split; [apply (import_domain_ok y m ws ov (Some x) b m' Sy (history_sound y m Sy H) E)|]. unfold import_domain, tuned in E.
  destruct (mg_tuning m); [|inversion E; subst; split; [intros _; split; [auto|tauto]|discriminate]]. unfold on_doms in E.
  destruct (import_one_ok y (mg_crits m) ws ov x (mg_doms m) _ (proj1 Sy) (proj2 Sy) C (conj K R) eq_refl) as [Q|[[Q _]|[b2 [s [Q [_ [F1 F2]]]]]]]; rewrite Q in E; try discriminate.
  cbn [obind fst snd] in E. inversion E; subst. cbn [mg_doms with_doms]. split; [auto|]. intros B. split; auto. destruct (F2 B) as [d [D1 [_ [_ D]]]]. exists d. auto.
Qed.
Print Assumptions C64_single.

Example C64_single_nonvacuous : system_ok xd /\ history xd dx
  /\ (exists x m', export_domain xd true (lit "E") dx = Ok x /\ import_domain xd true false (Some x) dx = Ok (false, m')
        /\ map dm_name (ds_list (mg_doms m')) = [lit "D"; lit "E"])
  /\ (exists x m', export_domain xd true (lit "D") dx = Ok x /\ import_domain xd true true (Some x) dx = Ok (true, m')
        /\ map dm_name (ds_list (mg_doms m')) = [lit "E"; lit "D"]).
Proof.
  split; [exact xd_ok|]. split; [apply xd_history; vm_compute; reflexivity|]. split.
  - eexists. eexists. split; [vm_compute; reflexivity|]. split; [vm_compute; reflexivity|]. vm_compute; reflexivity.
  - eexists. eexists. split; [vm_compute; reflexivity|]. split; [vm_compute; reflexivity|]. vm_compute; reflexivity.
Qed.

(** ** Examples *)

(** The document that dx exports has the nesting of the schemas; so has one without settings. *)
Fixpoint rule_shaped_b (n : nat) (x : xnode) : bool :=
  match n, x with
  | S n, XElem t _ c => if str_eqb t (lit "SelectionCriterionRule") then true else str_eqb t (lit "CompoundRule") && forallb (rule_shaped_b n) (filter is_elem c)
  | _, _ => false
  end.
Definition config_shaped_b (x : xnode) : bool :=
  str_eqb (x_type x) (lit "Configuration")
  && match x_elems x with [] => true | [r] => str_eqb (x_type r) (lit "CompoundRule") && rule_shaped_b 9 r | _ => false end.
Definition domain_shaped_b (x : xnode) : bool :=
  str_eqb (x_type x) (lit "ConfigurableDomain")
  && match x_elems x with
     | xc :: xe :: xs => str_eqb (x_type xc) (lit "Configurations") && str_eqb (x_type xe) (lit "ConfigurableElements")
                         && match xs with [] => true | [s] => str_eqb (x_type s) (lit "Settings") | _ => false end && forallb config_shaped_b (x_elems xc)
     | _ => false
     end.
Lemma rule_shaped_check : forall n x, rule_shaped_b n x = true -> rule_shaped x.
Proof.
  induction n as [|n IH]; intros [s|t a c] H; try discriminate. cbn [rule_shaped_b] in H. destruct (str_eqb t (lit "SelectionCriterionRule")) eqn:E.
  - apply str_eqb_eq in E. subst. constructor.
  - apply andb_true_iff in H. destruct H as [H1 H2]. apply str_eqb_eq in H1. subst. constructor. rewrite forallb_forall in H2. apply Forall_forall. auto.
Qed.
Lemma config_shaped_check : forall x, config_shaped_b x = true -> config_shaped x.
Proof.
  intros x H. apply andb_true_iff in H. destruct H as [H1 H2]. apply str_eqb_eq in H1. split; auto. destruct (x_elems x) as [|r [|? ?]]; auto; [|discriminate].
  apply andb_true_iff in H2. destruct H2 as [H2 H3]. apply str_eqb_eq in H2. right. exists r. split; auto. split; auto. eapply rule_shaped_check; eauto.
Qed.
Lemma domain_shaped_check : forall x, domain_shaped_b x = true -> domain_shaped x.
Proof.
  intros x H. apply andb_true_iff in H. destruct H as [H1 H2]. apply str_eqb_eq in H1. split; auto. destruct (x_elems x) as [|xc [|xe xs]]; try discriminate.
  apply andb_true_iff in H2. destruct H2 as [H2 H3]. apply andb_true_iff in H2. destruct H2 as [H2 H4]. apply andb_true_iff in H2. destruct H2 as [H2 H5].
  apply str_eqb_eq in H2. apply str_eqb_eq in H5. exists xc, xe, xs. split; auto. split; auto. split; auto. split.
  - destruct xs as [|s [|? ?]]; auto; [|discriminate]. apply str_eqb_eq in H4. right. eauto.
  - rewrite forallb_forall in H3. apply Forall_forall. intros c Hc. apply config_shaped_check. auto.
Qed.

Example C50_shaped_nonvacuous : exists x m', export_domains xd true dx = Ok x /\ domains_shaped x /\ import_domains xd false (Some x) dx = Ok (true, m')
  /\ get_recorded xd (lit "D") (lit "Call") (lit "/Sys/Sub/mix/a") m' = Ok (lit "3")
  /\ get_recorded xd (lit "D") (lit "Call") (lit "/Sys/Sub/mix/a") dx = Ok (lit "-7").
Proof.
  eexists. eexists. split; [vm_compute; reflexivity|]. split.
  - split; [reflexivity|]. apply Forall_forall. intros d Hd. apply domain_shaped_check. revert d Hd. apply forallb_forall. vm_compute. reflexivity.
  - split; [vm_compute; reflexivity|]. split; vm_compute; reflexivity.
Qed.

(** C50_without_settings, C50_single on the same states as C50_round_trip. *)
Example C50_single_nonvacuous : ds_find (lit "D") (mg_doms dx) <> None /\ ds_find (lit "D") (mg_doms dx_other) = None
  /\ (forall d, ds_find (lit "D") (mg_doms dx) = Some d -> dm_name d = lit "D" /\ exportable xd (mg_crits dx) (mg_fmt dx) d)
  /\ exists x m', export_domain xd true (lit "D") dx = Ok x /\ import_domain xd true false (Some x) dx_other = Ok (true, m')
       /\ map dm_name (ds_list (mg_doms m')) = [lit "Z"; lit "D"]
       /\ get_recorded xd (lit "D") (lit "Call") (lit "/Sys/Sub/mix/a") m' = Ok (lit "-7").
Proof.
  split; [vm_compute; discriminate|]. split; [vm_compute; reflexivity|]. split.
  - intros d H. split.
    + destruct (ds_find_split _ _ _ H) as [l1 [l2 [_ [Pn _]]]]. unfold dm_path_name in Pn. destruct (dm_name d); [discriminate|exact Pn].
    + assert (mg_crits dx = demo_crits) as -> by (vm_compute; reflexivity). assert (mg_fmt dx = Fmt false false) as -> by (vm_compute; reflexivity).
      apply dx_exportable. destruct (ds_find_split _ _ _ H) as [l1 [l2 [E _]]]. rewrite E. apply in_elt.
  - eexists. eexists. split; [vm_compute; reflexivity|]. split; [vm_compute; reflexivity|]. split; vm_compute; reflexivity.
Qed.

(** A settings file read at the start. *)
Example C50_start_nonvacuous : exists x s m, export_domains xd true dx = Ok x /\ import_all xd demo_crits true x (Domains [] [] 0) = Ok (true, s)
  /\ load xd true demo_crits s (initial_blackboard xd_tree) = Ok m /\ map dm_name (ds_list (mg_doms m)) = [lit "D"; lit "E"]
  /\ get_recorded xd (lit "D") (lit "Rest") (lit "/Sys/Sub/mix/a") m = Ok (lit "3").
Proof.
  eexists. eexists. eexists. split; [vm_compute; reflexivity|]. split; [vm_compute; reflexivity|]. split; [vm_compute; reflexivity|]. split; vm_compute; reflexivity.
Qed.

(** The raw value space. *)
Definition dx_raw : mgr := xd_after (dx_cmds ++ [CValueSpace true]).
Lemma restorable_value : forall f raw k off bb, restorable f raw k off bb -> value_ok k off bb.
Proof.
  intros f raw k off bb H. destruct k; auto; cbn [restorable] in H.
  - destruct H as [u [R [A _]]]. exists u. auto.
  - destruct H as [_ H]. intros j Hj. destruct (H j Hj) as [u [R [A _]]]. exists u. auto.
Qed.
Lemma dx_enums : forall e p k, In p [[0; 0]; [0; 3]; [0; 2]] -> param_at xd_tree (p ++ k) e -> forall b ps len l n, e_kind e = KdParam (PEnum b ps) \/ e_kind e = KdArray (PEnum b ps) len -> In (l, n) ps ->
        b = 1 /\ ps = [(lit "off", 0%Z); (lit "on", 5%Z)].
Proof.
  intros e p k [<-|[<-|[<-|[]]]] Pk.
  - revert k Pk. intros k Pk b ps len l n Hk _. revert Hk. revert b ps len. pattern ([0; 0] ++ k), (e_kind e).
    refine (each_param xd_tree [0; 0] (match elem_at xd_tree [0; 0] with Some e => e | None => xd_tree end) _ eq_refl eq_refl _ k e Pk).
    assert (params (match elem_at xd_tree [0; 0] with Some e => e | None => xd_tree end) = [([0], KdParam (PInt true 2 (-50) 50)); ([1], KdParam (PFix 2 3 4)); ([2], KdParam xd_enum); ([3], KdParam (PFloat (-100) 100)); ([4], KdArray xd_enum 2)]) as -> by (vm_compute; reflexivity).
    repeat (apply Forall_cons; [cbn [fst snd]; intros b ps len [Hk|Hk]; inversion Hk; auto|]). apply Forall_nil.
  - intros b ps len l n Hk _. revert Hk. revert b ps len. pattern ([0; 3] ++ k), (e_kind e).
    refine (each_param xd_tree [0; 3] (match elem_at xd_tree [0; 3] with Some e => e | None => xd_tree end) _ eq_refl eq_refl _ k e Pk).
    assert (params (match elem_at xd_tree [0; 3] with Some e => e | None => xd_tree end) = [([], KdString 4)]) as -> by (vm_compute; reflexivity).
    repeat (apply Forall_cons; [cbn [fst snd]; intros b ps len [Hk|Hk]; inversion Hk; auto|]). apply Forall_nil.
  - intros b ps len l n Hk _. revert Hk. revert b ps len. pattern ([0; 2] ++ k), (e_kind e).
    refine (each_param xd_tree [0; 2] (match elem_at xd_tree [0; 2] with Some e => e | None => xd_tree end) _ eq_refl eq_refl _ k e Pk).
    assert (params (match elem_at xd_tree [0; 2] with Some e => e | None => xd_tree end) = [([0], KdBit (BitType 0 3 7 1)); ([1], KdBit (BitType 4 2 3 1))]) as -> by (vm_compute; reflexivity).
    repeat (apply Forall_cons; [cbn [fst snd]; intros b ps len [Hk|Hk]; inversion Hk; auto|]). apply Forall_nil.
Qed.
Example C50_raw_decimal_nonvacuous : history xd dx_raw /\ mg_raw dx_raw = true /\ mg_hex dx_raw = false /\ mg_crits dx_raw = demo_crits
  /\ (forall d, In d (ds_list (mg_doms dx_raw)) -> config_named d /\ forall c, In c (dm_configs d) -> rule_exportable demo_crits c
     /\ forall a r e, In a (cf_areas c) -> param_at (sy_root xd) (ar_pos a ++ r) e ->
          value_ok (e_kind e) (offset (sy_root xd) (ar_pos a ++ r) - offset (sy_root xd) (ar_pos a)) (ar_bb a)
          /\ forall b ps len l n, e_kind e = KdParam (PEnum b ps) \/ e_kind e = KdArray (PEnum b ps) len -> In (l, n) ps -> (0 <= n <= width_hi true b)%Z)
  /\ exists x m', export_domains xd true dx_raw = Ok x /\ import_domains xd true (Some x) dx_other = Ok (true, m')
       /\ get_recorded xd (lit "D") (lit "Call") (lit "/Sys/Sub/mix/fl") m' = Ok (lit "0.25").
Proof.
  split; [apply xd_history; vm_compute; reflexivity|]. split; [vm_compute; reflexivity|]. split; [vm_compute; reflexivity|]. split; [vm_compute; reflexivity|]. split.
  - assert (mg_doms dx_raw = mg_doms dx) as -> by (vm_compute; reflexivity). intros d Hd. destruct (dx_exportable d Hd) as [N H]. split; [exact N|].
    intros c Hc. destruct (H c Hc) as [Re Fo]. split; [exact Re|]. intros a r e Ha Pe. rewrite Forall_forall in Fo. split.
    + apply (restorable_value (Fmt false false) false). apply (Fo a Ha r e Pe).
    + assert (In (ar_pos a) [[0; 0]; [0; 3]; [0; 2]]) as Ip.
      { assert (forallb (fun d => forallb (fun c => forallb (fun a => existsb (pos_eqb (ar_pos a)) [[0; 0]; [0; 3]; [0; 2]]) (cf_areas c)) (dm_configs d)) (ds_list (mg_doms dx)) = true) as Q by (vm_compute; reflexivity).
        rewrite forallb_forall in Q. specialize (Q d Hd). rewrite forallb_forall in Q. specialize (Q c Hc). rewrite forallb_forall in Q. specialize (Q a Ha).
        apply existsb_exists in Q. destruct Q as [q [Iq Eq]]. apply pos_eqb_eq in Eq. rewrite Eq. exact Iq. }
      intros b ps len l n Hk Il. destruct (dx_enums e (ar_pos a) r Ip Pe b ps len l n Hk Il) as [-> ->]. destruct Il as [I|[I|[]]]; inversion I; subst; vm_compute; intuition discriminate.
  - eexists. eexists. split; [vm_compute; reflexivity|]. split; [vm_compute; reflexivity|]. vm_compute; reflexivity.
Qed.

(** A history with domains imported together, then one alone. *)
Definition dx_all : mgr := match export_domains xd true dx with
  | Ok x => match import_domains xd true (Some x) dx_other with Ok (_, m) => m | _ => dx end | _ => dx end.
Definition dx_one : mgr := match export_domain xd true (lit "E") dx with
  | Ok x => match import_domain xd true true (Some x) dx_all with Ok (_, m) => m | _ => dx end | _ => dx end.
Example C51_after_imports_nonvacuous : history xd dx_one
  /\ map (fun d => map (fun c => map (fun a => (ar_pos a, ar_valid a)) (cf_areas c)) (dm_configs d)) (ds_list (mg_doms dx_one))
     = [[[([0; 0], true); ([0; 3], true)]; [([0; 3], true); ([0; 0], true)]]; [[([0; 2], true)]]].
Proof.
  split; [|vm_compute; reflexivity].
  apply (hi_import_one xd dx_all true true (match export_domain xd true (lit "E") dx with Ok x => Some x | _ => None end) true dx_one).
  - apply (hi_import xd dx_other true (match export_domains xd true dx with Ok x => Some x | _ => None end) true dx_all).
    + apply xd_history. vm_compute. reflexivity.
    + vm_compute. reflexivity.
  - vm_compute. reflexivity.
  - assert (forallb (fun d => forallb (fun c => forallb ar_valid (cf_areas c)) (dm_configs d)) (ds_list (mg_doms dx_one)) = true) as Q by (vm_compute; reflexivity).
    intros d c Hd Hc. rewrite forallb_forall in Q. specialize (Q d Hd). rewrite forallb_forall in Q. specialize (Q c Hc). rewrite forallb_forall in Q.
    apply Forall_forall. exact Q.
Qed.
