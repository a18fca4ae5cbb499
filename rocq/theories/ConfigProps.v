(** C21 to C27 and C51: the domains, their configurations, the settings they record. *)
From Coq Require Import List Arith ZArith Bool Ascii String Permutation Lia.
From Verif Require Import Base BaseProofs TextProofs BlackboardModel CriterionModel RuleModel TreeModel TreeSpec TreeProofs MemSpec SyncModel DomainModel DomainSpec DomainInv DomainProofs DomainsInv
  MgrModel MgrSpec MgrProofs MgrSkel ApplySpec ApplyProofs ValueSpec ValueProofs ReadProofs ApplyMore ConfigSpec ConfigProofs ConfigProofs2 Demo.
Import ListNotations.
Local Open Scope nat_scope.

(** In the examples: the system of Demo.v after its twenty commands, in tuning mode. *)
Definition demo_tuned_cmds : list cmd := demo_cmds ++ [CTuning true []].
Definition demo_tuned : mgr := demo_after demo demo_tuned_cmds.

Lemma demo_tuned_typed : reachable_typed demo demo_tuned.
Proof.
  exists demo_start, demo_tuned_cmds, (repeat true 21). split; [exact demo_started|]. split; [exact demo_strings|]. split; [repeat (constructor; [split; [exact I|discriminate]|]); constructor|].
  vm_compute. reflexivity.
Qed.
Lemma demo_tuned_reachable : reachable demo demo_tuned.
Proof. apply typed_reachable, demo_tuned_typed. Qed.

(** ** C21 *)

(** After any history: the elements of a domain exist, are listed once, and none is an ancestor of another; each configuration
    holds one setting for each of them and no other; the elements that list the domain are those the domain lists. *)
Theorem C21_association : forall y m d, system_ok y -> reachable y m -> In d (ds_list (mg_doms m)) ->
  (forall p, In p (dm_elems d) -> elem_at (sy_root y) p <> None) /\ NoDup (dm_elems d)
  /\ (forall p q, In p (dm_elems d) -> In q (dm_elems d) -> above p q -> p = q)
  /\ (forall c, In c (dm_configs d) -> Permutation (map ar_pos (cf_areas c)) (dm_elems d))
  /\ (forall p, In (p, dm_id d) (ds_att (mg_doms m)) <-> In p (dm_elems d)).
Proof.
  intros y m d Sy R Hd. destruct (reachable_ok y m Sy R) as [[K _] _]. pose proof (ds_domain _ _ K d Hd) as Kd. destruct (dk_separate _ _ Kd) as [N U].
  split; [intros p Hp; destruct (dk_exist _ _ Kd p Hp) as [e E]; congruence|]. split; auto. split.
  { intros p q Hp Hq A. destruct (list_eq_dec Nat.eq_dec p q) as [|D]; auto. destruct (U p q Hp Hq D) as [X _]. contradiction. }
  split; [intros c Hc; apply (dk_configs _ _ Kd c Hc)|].
  intros p. rewrite (ds_attached _ _ K). split.
  - intros [k [Hk [E Hp]]]. assert (k = d) as -> by (apply (NoDup_map_in _ _ dm_id _ k d (ds_ids _ _ K)); auto). auto.
  - intros Hp. exists d. auto.
Qed.
Print Assumptions C21_association.

(** The domains an element lists all exist, and distinct domains are distinguished. *)
Theorem C21_attached_domains_exist : forall y m p id, system_ok y -> reachable y m -> In (p, id) (ds_att (mg_doms m)) ->
  exists d, In d (ds_list (mg_doms m)) /\ dm_id d = id /\ In p (dm_elems d) /\ forall k, In k (ds_list (mg_doms m)) -> dm_id k = id -> k = d.
Proof.
  intros y m p id Sy R H. destruct (reachable_ok y m Sy R) as [[K _] _]. apply (ds_attached _ _ K) in H. destruct H as [d [Hd [E Hp]]]. exists d. repeat (split; auto).
  intros k Hk Ek. apply (NoDup_map_in _ _ dm_id _ k d (ds_ids _ _ K)); congruence.
Qed.
Print Assumptions C21_attached_domains_exist.

Example C21_nonvacuous : system_ok demo /\ reachable demo demo_tuned /\ map dm_elems (ds_list (mg_doms demo_tuned)) = [[[0; 0]]; [[0; 1]; [0; 2]]]
  /\ map (fun d => List.length (dm_configs d)) (ds_list (mg_doms demo_tuned)) = [2; 1] /\ ds_att (mg_doms demo_tuned) = [([0; 0], 0); ([0; 1], 1); ([0; 2], 1)].
Proof. split; [apply demo_ok|]. split; [apply demo_tuned_reachable|]. vm_compute. repeat split. Qed.

(** ** C22 *)

(** Saved in the state [m0], restored in the state [m2]: the commands in between may be any that do not edit the configuration. *)
Theorem C22_save_restore : forall y m0 dn cn m1 cs bs m2 d, system_ok y -> reachable y m0 -> ds_find dn (mg_doms m0) = Some d ->
  step y m0 (CSave dn cn) = Ok (true, m1) -> run y m1 cs = Ok (bs, m2) -> Forall (spares dn cn) cs -> mg_tuning m2 = true ->
  exists b m3, step y m2 (CRestore dn cn) = Ok (b, m3)
    /\ forall q e, param_at (sy_root y) q e ->
         (covers d q -> same_setting (sy_root y) q 0 (mg_main m3) 0 (mg_main m0))
         /\ (~ covers d q -> same_setting (sy_root y) q 0 (mg_main m3) 0 (mg_main m2)).
Proof.
  intros y m0 dn cn m1 cs bs m2 d Sy R Fd Hs Hr Sp T. destruct (reachable_ok y m0 Sy R) as [K0 _]. pose proof (reachable_step _ _ _ _ _ R Hs) as R1. destruct (reachable_ok y m1 Sy R1) as [K1 _].
  pose proof (run_reachable _ _ _ _ _ R1 Hr) as R2. destruct (reachable_ok y m2 Sy R2) as [K2 _].
  destruct (save_effect y m0 dn cn m1 Sy K0 Hs) as [d0 [c [c' [F1 [F2 [S [D [_ [_ _]]]]]]]]]. assert (d0 = d) as -> by congruence.
  pose proof (run_designates y cs m1 bs m2 dn cn _ _ Sy K1 Sp Hr D) as D2. destruct (restore_effect y m2 dn cn _ _ Sy K2 T D2) as [b [m3 [c2 [H3 [E [W _]]]]]].
  exists b, m3. split; auto. intros q e Hq. apply (saved_written y (mg_main m0) d c c' c2 _ _ q e); auto.
  - apply (ds_domain _ _ (proj1 K0)), (ds_find_In _ _ _ Fd).
  - apply (dm_find_In _ _ _ F2).
Qed.
Print Assumptions C22_save_restore.

(** As texts read through the tuning interface. *)
Theorem C22_save_restore_read : forall y m0 dn cn m1 cs bs m2 d b m3 path q rest, system_ok y -> reachable_typed y m0 -> ds_find dn (mg_doms m0) = Some d ->
  step y m0 (CSave dn cn) = Ok (true, m1) -> run y m1 cs = Ok (bs, m2) -> Forall (spares dn cn) cs -> Forall all_typed cs -> mg_tuning m2 = true ->
  step y m2 (CRestore dn cn) = Ok (b, m3) -> param_of (sy_root y) path = Some (q, rest) ->
  (covers d q -> mg_fmt m2 = mg_fmt m0 -> get_parameter y path m3 = get_parameter y path m0)
  /\ (~ covers d q -> get_parameter y path m3 = get_parameter y path m2).
Proof.
  intros y m0 dn cn m1 cs bs m2 d b m3 path q rest Sy R Fd Hs Hr Sp Ty T H3 P. pose proof (typed_reachable _ _ R) as R0.
  destruct (C22_save_restore y m0 dn cn m1 cs bs m2 d Sy R0 Fd Hs Hr Sp T) as [b' [m3' [H3' S]]]. rewrite H3 in H3'. inversion H3'; subst b' m3'.
  destruct (param_of_sound _ _ _ _ P) as [e Hq]. destruct (S q e Hq) as [S1 S2]. destruct (reachable_ok y m0 Sy R0) as [K0 _].
  assert (reachable_typed y m1) as T1 by (apply (typed_step y m0 (CSave dn cn) true); auto; split; [exact I|discriminate]).
  pose proof (run_typed _ _ _ _ _ T1 Ty Hr) as T2. destruct (reachable_ok y m2 Sy (typed_reachable _ _ T2)) as [K2 _].
  pose proof (reachable_step _ _ _ _ _ (typed_reachable _ _ T2) H3) as R3. destruct (reachable_ok y m3 Sy R3) as [K3 _].
  assert (mg_fmt m3 = mg_fmt m2) as Fm.
  { destruct (reachable_ok y m1 Sy (typed_reachable _ _ T1)) as [K1 _]. destruct (save_effect y m0 dn cn m1 Sy K0 Hs) as [d0 [c [c' [_ [_ [_ [D _]]]]]]].
    pose proof (run_designates y cs m1 bs m2 dn cn _ _ Sy K1 Sp Hr D) as D2. destruct (restore_effect y m2 dn cn _ _ Sy K2 T D2) as [b' [m3' [c2 [H4 [_ [_ [F _]]]]]]]. congruence. }
  split; intros Cv.
  - intros F. apply (get_same y m0 m3 path q rest); auto; [apply Sy|apply K0|apply K3|congruence|apply typed_strings; auto].
  - apply (get_same y m2 m3 path q rest); auto; [apply Sy|apply K2|apply K3|apply typed_strings; auto].
Qed.
Print Assumptions C22_save_restore_read.

Example C22_nonvacuous :
  let before := demo_tuned_cmds ++ [CSetParameter (lit "/Sys/Sub/blk/a") (lit "300"); CSetParameter (lit "/Sys/Sub/blk/arr") (lit "1 0 1")] in
  let between := [CSetParameter (lit "/Sys/Sub/blk/a") (lit "400"); CSetParameter (lit "/Sys/Aux/x") (lit "50"); CRestore (lit "D1") (lit "Other");
                  CSetParameter (lit "/Sys/Sub/str") (lit "abc"); CTuning false []; CTuning true []] in
  let m0 := demo_after demo before in
  let m2 := demo_after demo (before ++ CSave (lit "D1") (lit "Call") :: between) in
  let m3 := demo_after demo (before ++ CSave (lit "D1") (lit "Call") :: between ++ [CRestore (lit "D1") (lit "Call")]) in
  Forall (spares (lit "D1") (lit "Call")) between /\ Forall all_typed between /\ mg_tuning m2 = true /\ mg_fmt m2 = mg_fmt m0
  /\ map (fun m => get_parameter demo (lit "/Sys/Sub/blk/a") m) [m0; m2; m3] = [Ok (lit "300"); Ok (lit "200"); Ok (lit "300")]
  /\ map (fun m => get_parameter demo (lit "/Sys/Sub/blk/arr") m) [m0; m2; m3] = [Ok (lit "1 0 1"); Ok (lit "0 1 0"); Ok (lit "1 0 1")]
  /\ map (fun m => get_parameter demo (lit "/Sys/Aux/x") m) [m0; m2; m3] = [Ok (lit "0"); Ok (lit "50"); Ok (lit "50")].
Proof.
  cbv zeta. split; [repeat constructor|]. split; [repeat (constructor; [split; [exact I|discriminate]|]); constructor|]. vm_compute. repeat split.
Qed.

(** ** C23 *)

(** Splitting an element: live parameters and other domains are unchanged; the domain still covers the same parameters and its
    configurations, with the same names and rules, record the same value for every parameter covered before. *)
Theorem C23_split_keeps_settings : forall y m dn path b m1 d, system_ok y -> reachable y m -> step y m (CSplit dn path) = Ok (b, m1) -> ds_find dn (mg_doms m) = Some d ->
  mg_main m1 = mg_main m /\ (forall n, n <> dn -> ds_find n (mg_doms m1) = ds_find n (mg_doms m))
  /\ exists d', ds_find dn (mg_doms m1) = Some d' /\ dm_last d' = dm_last d
     /\ (forall q e, param_at (sy_root y) q e -> covers d q -> covers d' q)
     /\ Forall2 (fun c c' => cf_id c' = cf_id c /\ cf_name c' = cf_name c /\ cf_rule c' = cf_rule c
          /\ forall q e, param_at (sy_root y) q e -> covers d q -> same_record (sy_root y) q c c') (dm_configs d) (dm_configs d').
Proof.
  intros y m dn path b m1 d Sy R H F. destruct (reachable_ok y m Sy R) as [K _]. destruct (split_effect y m dn path m1 b d Sy K H F) as [M [_ [O [d' [F' [[L [C Fo]] _]]]]]].
  split; auto. split; auto. exists d'. split; auto. split; auto. split; auto. intros q e Hq. apply C. eauto.
Qed.
Print Assumptions C23_split_keeps_settings.

(** Associating an element, possibly above elements already associated: the same. *)
Theorem C23_merge_keeps_settings : forall y m dn path b m1 d, system_ok y -> reachable y m -> step y m (CAddElement dn path) = Ok (b, m1) -> ds_find dn (mg_doms m) = Some d ->
  mg_main m1 = mg_main m /\ (forall n, n <> dn -> ds_find n (mg_doms m1) = ds_find n (mg_doms m))
  /\ exists d', ds_find dn (mg_doms m1) = Some d' /\ dm_last d' = dm_last d
     /\ (forall q e, param_at (sy_root y) q e -> covers d q -> covers d' q)
     /\ Forall2 (fun c c' => cf_id c' = cf_id c /\ cf_name c' = cf_name c /\ cf_rule c' = cf_rule c
          /\ forall q e, param_at (sy_root y) q e -> covers d q -> same_record (sy_root y) q c c') (dm_configs d) (dm_configs d').
Proof.
  intros y m dn path b m1 d Sy R H F. destruct (reachable_ok y m Sy R) as [K _]. destruct (add_effect y m dn path m1 b d Sy K H F) as [M [_ [O [d' [F' [[L [C Fo]] _]]]]]].
  split; auto. split; auto. exists d'. split; auto. split; auto. split; auto. intros q e Hq. apply C. eauto.
Qed.
Print Assumptions C23_merge_keeps_settings.

(** As texts: what getConfigurationParameter returns for a parameter covered before. *)
Theorem C23_recorded_read : forall y m dn path b m1 d cn c ppath q e, system_ok y -> reachable_typed y m ->
  (step y m (CSplit dn path) = Ok (b, m1) \/ step y m (CAddElement dn path) = Ok (b, m1)) -> ds_find dn (mg_doms m) = Some d -> dm_find cn d = Some c ->
  locate (sy_root y) ppath = Some q -> param_at (sy_root y) q e -> covers d q ->
  get_recorded y dn cn ppath m1 = get_recorded y dn cn ppath m.
Proof.
  intros y m dn path b m1 d cn c ppath q e Sy R H F Fc P Hq Cv. pose proof (typed_reachable _ _ R) as R0. destruct (reachable_ok y m Sy R0) as [K _].
  assert (reachable y m1) as R1 by (destruct H as [H|H]; apply (reachable_step _ _ _ _ _ R0 H)). destruct (reachable_ok y m1 Sy R1) as [K1 _].
  assert (mg_main m1 = mg_main m /\ mg_fmt m1 = mg_fmt m /\ exists d', ds_find dn (mg_doms m1) = Some d' /\ keeps_records y d d') as [M [Fm [d' [F' Kr]]]].
  { destruct H as [H|H]; [destruct (split_effect y m dn path m1 b d Sy K H F) as [M [Fm [_ [d' [F' [Kr _]]]]]]|destruct (add_effect y m dn path m1 b d Sy K H F) as [M [Fm [_ [d' [F' [Kr _]]]]]]]; eauto 6. }
  apply (keeps_read y m m1 dn cn ppath q e d c d'); auto.
Qed.
Print Assumptions C23_recorded_read.

(** The block split into its three parameters; then associated again as a whole. *)
Example C23_nonvacuous :
  let m1 := demo_after demo (demo_tuned_cmds ++ [CSplit (lit "D1") (lit "/Sys/Sub/blk")]) in
  let m2 := demo_after demo (demo_tuned_cmds ++ [CSplit (lit "D1") (lit "/Sys/Sub/blk"); CAddElement (lit "D1") (lit "/Sys/Sub/blk")]) in
  map (fun m => map dm_elems (ds_list (mg_doms m))) [demo_tuned; m1; m2]
    = [[[[0; 0]]; [[0; 1]; [0; 2]]]; [[[0; 0; 0]; [0; 0; 1]; [0; 0; 2]]; [[0; 1]; [0; 2]]]; [[[0; 0]]; [[0; 1]; [0; 2]]]]
  /\ map (fun m => get_recorded demo (lit "D1") (lit "Other") (lit "/Sys/Sub/blk/arr") m) [demo_tuned; m1; m2] = [Ok (lit "0 1 0"); Ok (lit "0 1 0"); Ok (lit "0 1 0")]
  /\ map (fun m => get_recorded demo (lit "D1") (lit "Call") (lit "/Sys/Sub/blk/a") m) [demo_tuned; m1; m2] = [Ok (lit "100"); Ok (lit "100"); Ok (lit "100")].
Proof. vm_compute. repeat split. Qed.

(** ** C24 *)

(** Success is reported though the element was not split: it is not associated to the domain, or it has no children. *)
Theorem C24_split_reports_its_failure_refuted : exists y m dn path p d, system_ok y /\ reachable y m /\ locate (sy_root y) path = Some p
  /\ ds_find dn (mg_doms m) = Some d /\ ~ In p (dm_elems d) /\ step y m (CSplit dn path) = Ok (true, m).
Proof.
  exists demo, demo_tuned, (lit "D1"), (lit "/Sys/Aux"), [1]. eexists. split; [apply demo_ok|]. split; [apply demo_tuned_reachable|]. split; [vm_compute; reflexivity|].
  split; [vm_compute; reflexivity|]. split; [intros C; vm_compute in C; intuition discriminate|]. vm_compute. reflexivity.
Qed.
Print Assumptions C24_split_reports_its_failure_refuted.

Theorem C24_split_leaf_refuted : exists y m dn path p d e, system_ok y /\ reachable y m /\ locate (sy_root y) path = Some p /\ ds_find dn (mg_doms m) = Some d
  /\ In p (dm_elems d) /\ elem_at (sy_root y) p = Some e /\ e_children e = [] /\ step y m (CSplit dn path) = Ok (true, m).
Proof.
  exists demo, demo_tuned, (lit "D2"), (lit "/Sys/Sub/str"), [0; 2]. eexists. eexists. split; [apply demo_ok|]. split; [apply demo_tuned_reachable|]. split; [vm_compute; reflexivity|].
  split; [vm_compute; reflexivity|]. split; [vm_compute; auto|]. split; [vm_compute; reflexivity|]. vm_compute. repeat split.
Qed.
Print Assumptions C24_split_leaf_refuted.

(** What the command does, whatever it reports: an associated element that has children is replaced by them; in all other cases
    nothing changes. *)
Theorem C24_split_effect_partial : forall y m dn path b m1 d, system_ok y -> reachable y m -> step y m (CSplit dn path) = Ok (b, m1) -> ds_find dn (mg_doms m) = Some d ->
  (exists p e d', mg_tuning m = true /\ locate (sy_root y) path = Some p /\ In p (dm_elems d) /\ elem_at (sy_root y) p = Some e /\ e_children e <> []
     /\ ds_find dn (mg_doms m1) = Some d' /\ ~ In p (dm_elems d')
     /\ forall x, In x (dm_elems d') <-> (In x (dm_elems d) /\ x <> p) \/ exists i, x = p ++ [i] /\ i < List.length (e_children e))
  \/ (m1 = m /\ forall p e, mg_tuning m = true -> locate (sy_root y) path = Some p -> elem_at (sy_root y) p = Some e -> ~ In p (dm_elems d) \/ e_children e = []).
Proof.
  intros y m dn path b m1 d Sy R H F. destruct (reachable_ok y m Sy R) as [K _]. destruct (split_effect y m dn path m1 b d Sy K H F) as [_ [_ [_ [d' [F' [_ [[p [e [T [P [I [E [C El]]]]]]]|G]]]]]]]; auto.
  left. exists p, e, d'. split; auto. split; auto. split; auto. split; auto. split; auto. split; auto.
  assert (forall x, In x (dm_elems d') <-> (In x (dm_elems d) /\ x <> p) \/ exists i, x = p ++ [i] /\ i < List.length (e_children e)) as G.
  { intros x. rewrite El, in_app_iff, filter_In, children_pos_In, negb_true_iff, pos_eqb_neq. tauto. }
  split; auto. rewrite G. intros [[_ N]|[i [N _]]]; [auto|]. apply (f_equal (@List.length nat)) in N. rewrite app_length in N. simpl in N. lia.
Qed.
Print Assumptions C24_split_effect_partial.

(** ** C25 *)

(** Provided no command gives an empty name: names are pairwise distinct, and each one designates its domain (resp. configuration). *)
Theorem C25_names_designate_partial : forall y m0 cmds bs m, system_ok y -> started y m0 -> names_distinct m0 -> Forall gives_name cmds ->
  run y m0 cmds = Ok (bs, m) ->
  NoDup (map dm_name (ds_list (mg_doms m)))
  /\ forall d, In d (ds_list (mg_doms m)) -> ds_find (dm_name d) (mg_doms m) = Some d /\ NoDup (map cf_name (dm_configs d))
       /\ forall c, In c (dm_configs d) -> dm_find (cf_name c) d = Some c.
Proof.
  intros y m0 cmds bs m Sy St Nm G H.
  destruct (run_inv y names_distinct gives_name Sy (fun m c b m' K N Gc Hs => step_names y m c b m' Sy K Gc Hs N) cmds _ bs m (proj1 (started_ok y m0 Sy St))) as [_ [N1 [N2 N3]]]; auto.
  assert (forall A (name : A -> str) (shown_name : A -> str) l x, (forall k, name k <> [] -> shown_name k = name k) -> NoDup (map name l) -> ~ In [] (map name l) -> In x l ->
            find (fun k => str_eqb (shown_name k) (name x)) l = Some x) as Find.
  { intros A name sn l x Hsn Nd Ne Hx. destruct (in_split _ _ Hx) as [l1 [l2 ->]].
    assert (forall k, In k (l1 ++ x :: l2) -> sn k = name k) as E by (intros k Hk; apply Hsn; intros C; apply Ne; rewrite <- C; apply in_map; auto).
    apply find_mid_here.
    - intros k Hk. apply str_neqb. rewrite E by (apply in_or_app; auto). intros C. rewrite map_app in Nd. cbn [map] in Nd. apply NoDup_remove_2 in Nd. apply Nd. rewrite <- C. apply in_or_app. left. apply in_map. auto.
    - apply str_eqb_eq. apply E. apply in_or_app. simpl. auto. }
  split; auto. intros d Hd. split; [apply Find; auto; intros k Hk; unfold dm_path_name; destruct (dm_name k); congruence|].
  destruct (N3 d Hd) as [N4 N5]. split; auto. intros c Hc. apply (Find _ cf_name cf_path_name); auto. intros k Hk. unfold cf_path_name. destruct (cf_name k); congruence.
Qed.
Print Assumptions C25_names_designate_partial.

Example C25_nonvacuous : started demo demo_start /\ names_distinct demo_start /\ Forall gives_name demo_cmds /\ run demo demo_start demo_cmds = Ok (repeat true 20, demo_state)
  /\ map dm_name (ds_list (mg_doms demo_state)) = [lit "D1"; lit "D2"].
Proof.
  split; [exact demo_started|]. split; [split; [constructor|]; split; [intros []|intros d []]|].
  split; [repeat (constructor; [try exact I; discriminate|]); constructor|]. split; [exact demo_runs|]. vm_compute. reflexivity.
Qed.

(** Without this hypothesis: two domains of the same (empty) name, and likewise two configurations of a domain. *)
Theorem C25_empty_names_refuted : exists y m d1 d2, system_ok y /\ reachable y m /\ In d1 (ds_list (mg_doms m)) /\ In d2 (ds_list (mg_doms m)) /\ d1 <> d2 /\ dm_name d1 = dm_name d2.
Proof.
  exists demo, (demo_after demo [CTuning true []; CCreateDomain []; CCreateDomain []]). eexists. eexists. split; [apply demo_ok|].
  split; [exists demo_start, [CTuning true []; CCreateDomain []; CCreateDomain []], [true; true; true]; split; [exact demo_started|vm_compute; reflexivity]|].
  split; [vm_compute; left; reflexivity|]. split; [vm_compute; right; left; reflexivity|]. split; [discriminate|reflexivity].
Qed.
Print Assumptions C25_empty_names_refuted.

Theorem C25_empty_configuration_names_refuted : exists y m d c1 c2, system_ok y /\ reachable y m /\ In d (ds_list (mg_doms m)) /\ In c1 (dm_configs d) /\ In c2 (dm_configs d) /\ c1 <> c2 /\ cf_name c1 = cf_name c2.
Proof.
  exists demo, (demo_after demo [CTuning true []; CCreateDomain (lit "D"); CCreateConfig (lit "D") []; CCreateConfig (lit "D") []]). eexists. eexists. eexists. split; [apply demo_ok|].
  split; [exists demo_start, [CTuning true []; CCreateDomain (lit "D"); CCreateConfig (lit "D") []; CCreateConfig (lit "D") []], [true; true; true; true]; split; [exact demo_started|vm_compute; reflexivity]|].
  split; [vm_compute; left; reflexivity|]. split; [vm_compute; left; reflexivity|]. split; [vm_compute; right; left; reflexivity|]. split; [discriminate|reflexivity].
Qed.
Print Assumptions C25_empty_configuration_names_refuted.

(** A domain that its own name does not designate: deleting it deletes another one. *)
Theorem C25_name_of_the_kind_refuted : exists y m d k, system_ok y /\ reachable y m /\ In d (ds_list (mg_doms m)) /\ dm_name d <> [] /\ ds_find (dm_name d) (mg_doms m) = Some k /\ dm_name k <> dm_name d.
Proof.
  exists demo, (demo_after demo [CTuning true []; CCreateDomain []; CCreateDomain (lit "D"); CRenameDomain (lit "D") (lit "ConfigurableDomain")]). eexists. eexists. split; [apply demo_ok|].
  split; [exists demo_start, [CTuning true []; CCreateDomain []; CCreateDomain (lit "D"); CRenameDomain (lit "D") (lit "ConfigurableDomain")], [true; true; true; true];
          split; [exact demo_started|vm_compute; reflexivity]|].
  split; [vm_compute; right; left; reflexivity|]. split; [discriminate|]. split; [vm_compute; reflexivity|]. discriminate.
Qed.
Print Assumptions C25_name_of_the_kind_refuted.

(** ** C26 *)

Theorem C26_last_applied_exists : forall y m d, system_ok y -> reachable y m -> In d (ds_list (mg_doms m)) ->
  dm_last d = None \/ exists c, In c (dm_configs d) /\ dm_last d = Some (cf_id c) /\ dm_last_config d = Some c /\ forall k, In k (dm_configs d) -> cf_id k = cf_id c -> k = c.
Proof.
  intros y m d Sy R Hd. destruct (reachable_ok y m Sy R) as [[K _] _]. pose proof (ds_domain _ _ K d Hd) as Kd. destruct (dm_last d) as [i|] eqn:E; auto. right.
  destruct (dk_last _ _ Kd i E) as [c [Hc Ec]]. exists c. assert (forall k, In k (dm_configs d) -> cf_id k = cf_id c -> k = c) as U.
  { intros k Hk Ek. apply (NoDup_map_in _ _ cf_id _ k c (dk_ids _ _ Kd)); auto. }
  split; auto. split; [congruence|]. split; auto. unfold dm_last_config. rewrite E. destruct (find (fun c => cf_id c =? i) (dm_configs d)) as [k|] eqn:F.
  - apply find_some in F. destruct F as [Hk Ek]. apply Nat.eqb_eq in Ek. f_equal. apply U; congruence.
  - pose proof (find_none _ _ F c Hc) as N. cbn beta in N. apply Nat.eqb_neq in N. congruence.
Qed.
Print Assumptions C26_last_applied_exists.

(** The last applied configuration deleted: the domain then has none, also when a new one of the same name is created. *)
Example C26_nonvacuous :
  let m1 := demo_after demo (demo_tuned_cmds ++ [CDeleteConfig (lit "D1") (lit "Other")]) in
  let m2 := demo_after demo (demo_tuned_cmds ++ [CDeleteConfig (lit "D1") (lit "Other"); CCreateConfig (lit "D1") (lit "Other")]) in
  map (fun m => map (fun d => option_map cf_name (dm_last_config d)) (ds_list (mg_doms m))) [demo_tuned; m1; m2] = [[Some (lit "Other"); None]; [None; None]; [None; None]].
Proof. vm_compute. reflexivity. Qed.

(** ** C51 *)

(** Every configuration has, for each associated element, one setting, marked valid, of the size of the element. *)
Theorem C51_settings_valid : forall y m d c, system_ok y -> reachable y m -> In d (ds_list (mg_doms m)) -> In c (dm_configs d) ->
  forall p, In p (dm_elems d) -> exists a, In a (cf_areas c) /\ ar_pos a = p /\ ar_valid a = true
    /\ exists e, elem_at (sy_root y) p = Some e /\ List.length (ar_bb a) = storage_size e.
Proof.
  intros y m d c Sy R Hd Hc p Hp. destruct (reachable_ok y m Sy R) as [[K [V _]] _]. destruct (dk_configs _ _ (ds_domain _ _ K d Hd) c Hc) as [Pm Fo].
  pose proof (Permutation_in _ (Permutation_sym Pm) Hp) as I. apply in_map_iff in I. destruct I as [a [E Ha]]. exists a. split; auto. split; auto.
  pose proof (V d c Hd Hc) as Va. unfold config_valid in Va. rewrite Forall_forall in Va, Fo. split; auto. rewrite <- E. apply (Fo a Ha).
Qed.
Print Assumptions C51_settings_valid.

(** Applying or restoring never reads outside of a memory nor terminates the program. *)
Theorem C51_apply_and_restore_defined : forall y m, system_ok y -> reachable y m ->
  (forall need, exists m', step y m (CApply need) = Ok (true, m')) /\ forall dn cn, exists b m', step y m (CRestore dn cn) = Ok (b, m').
Proof.
  intros y m Sy R. destruct (reachable_ok y m Sy R) as [K _]. split.
  - intros need. destruct (step_ok y m (CApply need) Sy K) as [[b [m' [H _]]]|[_ [d [n [t C]]]]]; [|discriminate]. exists m'. rewrite H. cbn [step] in H.
    destruct (apply_configurations y need m); try discriminate. cbn [obind] in H. congruence.
  - intros dn cn. destruct (step_ok y m (CRestore dn cn) Sy K) as [[b [m' [H _]]]|[_ [d [n [t C]]]]]; [eauto|discriminate].
Qed.
Print Assumptions C51_apply_and_restore_defined.

(** A configuration created after the association, one element associated after the creation of the configurations. *)
Example C51_nonvacuous :
  let m := demo_after demo (demo_tuned_cmds ++ [CCreateConfig (lit "D2") (lit "Off"); CAddElement (lit "D2") (lit "/Sys/Aux/x")]) in
  map (fun d => map (fun c => (cf_name c, map (fun a => (ar_pos a, ar_valid a)) (cf_areas c))) (dm_configs d)) (ds_list (mg_doms m))
  = [[(lit "Call", [([0; 0], true)]); (lit "Other", [([0; 0], true)])];
     [(lit "On", [([0; 1], true); ([0; 2], true); ([1; 0], true)]); (lit "Off", [([0; 1], true); ([0; 2], true); ([1; 0], true)])]].
Proof. vm_compute. reflexivity. Qed.

(** ** C27 *)

(** A check of [names_ok] by computation. *)
Definition distinct_names (l : list elem) : bool :=
  forallb (fun i => forallb (fun j => (i =? j) || match nth_error l i, nth_error l j with Some a, Some b => negb (str_eqb (path_name a) (path_name b)) | _, _ => true end)
                      (seq 0 (List.length l))) (seq 0 (List.length l)).
Definition check_names (root : elem) : bool :=
  negb (str_eqb (e_name root) [])
  && forallb (fun p => match elem_at root p with Some e => negb (existsb (Ascii.eqb "/"%char) (path_name e)) && distinct_names (e_children e) | None => true end) (positions root).

Lemma check_names_ok : forall root, check_names root = true -> names_ok root.
Proof.
  intros root H. apply andb_true_iff in H. destruct H as [H1 H2]. rewrite forallb_forall in H2. split; [intros C; rewrite C in H1; discriminate|]. split.
  - intros p e E C. specialize (H2 p (positions_In _ _ _ E)). rewrite E in H2. apply andb_true_iff in H2. destruct H2 as [H2 _]. apply negb_true_iff in H2.
    apply not_true_iff_false in H2. apply H2. apply existsb_exists. exists "/"%char. split; auto.
  - intros p e i j c d E Ei Ej En. specialize (H2 p (positions_In _ _ _ E)). rewrite E in H2. apply andb_true_iff in H2. destruct H2 as [_ H2]. unfold distinct_names in H2.
    rewrite forallb_forall in H2. assert (In i (seq 0 (List.length (e_children e)))) as Ii by (apply in_seq; split; [lia|]; apply nth_error_Some; congruence).
    specialize (H2 i Ii). rewrite forallb_forall in H2. assert (In j (seq 0 (List.length (e_children e)))) as Ij by (apply in_seq; split; [lia|]; apply nth_error_Some; congruence).
    specialize (H2 j Ij). apply orb_true_iff in H2. destruct H2 as [H2|H2]; [apply Nat.eqb_eq; auto|]. rewrite Ei, Ej in H2. apply negb_true_iff in H2. rewrite En in H2.
    assert (str_eqb (path_name d) (path_name d) = true) by (apply str_eqb_eq; auto). congruence.
Qed.

Lemma demo_names : names_ok demo_tree.
Proof. apply check_names_ok. vm_compute. reflexivity. Qed.

(** No element is lost nor duplicated, and the settings move with their elements, whatever is reported.  Success is reported when
    the paths given are distinct and are those of associated elements; these then come first, in the order given, before the
    others in the order they had. *)
Theorem C27_sequence : forall y m dn cn paths b m1 d c, system_ok y -> names_ok (sy_root y) -> reachable y m -> mg_tuning m = true -> step y m (CSequence dn cn paths) = Ok (b, m1) ->
  ds_find dn (mg_doms m) = Some d -> dm_find cn d = Some c ->
  exists d' c', ds_find dn (mg_doms m1) = Some d' /\ dm_find cn d' = Some c' /\ dm_elems d' = dm_elems d /\ Permutation (cf_areas c') (cf_areas c)
    /\ (b = true <-> NoDup paths /\ forall s, In s paths -> In s (cf_sequence y c))
    /\ (b = true -> cf_sequence y c' = paths ++ filter (fun s => negb (existsb (str_eqb s) paths)) (cf_sequence y c)).
Proof. intros y m dn cn paths b m1 d c Sy N R T H Fd Fc. destruct (reachable_ok y m Sy R) as [K _]. apply (sequence_effect y m dn cn paths b m1 d c); auto. Qed.
Print Assumptions C27_sequence.

Example C27_nonvacuous : names_ok (sy_root demo) /\ mg_tuning demo_tuned = true
  /\ exists m1 d c d' c', step demo demo_tuned (CSequence (lit "D2") (lit "On") [lit "/Sys/Sub/str"]) = Ok (true, m1)
     /\ ds_find (lit "D2") (mg_doms demo_tuned) = Some d /\ dm_find (lit "On") d = Some c /\ cf_sequence demo c = [lit "/Sys/Sub/bits"; lit "/Sys/Sub/str"]
     /\ ds_find (lit "D2") (mg_doms m1) = Some d' /\ dm_find (lit "On") d' = Some c' /\ cf_sequence demo c' = [lit "/Sys/Sub/str"; lit "/Sys/Sub/bits"].
Proof. split; [apply demo_names|]. split; [vm_compute; reflexivity|]. do 5 eexists. vm_compute. repeat split. Qed.

(** An error is reported, yet the sequence is changed. *)
Theorem C27_error_changes_nothing_refuted : exists y m dn cn paths m1 d c d' c', system_ok y /\ names_ok (sy_root y) /\ reachable y m
  /\ step y m (CSequence dn cn paths) = Ok (false, m1) /\ ds_find dn (mg_doms m) = Some d /\ dm_find cn d = Some c
  /\ ds_find dn (mg_doms m1) = Some d' /\ dm_find cn d' = Some c' /\ cf_sequence y c' <> cf_sequence y c.
Proof.
  exists demo, demo_tuned, (lit "D2"), (lit "On"), [lit "/Sys/Sub/str"; lit "/Sys/Aux"]. do 5 eexists. split; [apply demo_ok|]. split; [apply demo_names|]. split; [apply demo_tuned_reachable|].
  split; [vm_compute; reflexivity|]. split; [vm_compute; reflexivity|]. split; [vm_compute; reflexivity|]. split; [vm_compute; reflexivity|]. split; [vm_compute; reflexivity|]. vm_compute. discriminate.
Qed.
Print Assumptions C27_error_changes_nothing_refuted.
