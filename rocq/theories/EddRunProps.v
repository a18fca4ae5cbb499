(** C79: from an EDD file to the framework. *)
From Coq Require Import List Arith ZArith Bool Ascii String Lia Permutation.
From Verif Require Import Base BaseProofs ParamTypeModel CriterionModel CriterionSpec RuleModel RuleSpec TreeModel TreeSpec SyncModel DomainModel DomainSpec DomainsInv MgrModel MgrSpec MgrProofs LoadModel LoadSpec EditProofs
  XmlModel XmlSpec XmlDemo DomXmlModel DomXmlSpec DomXmlRound DomXmlHist DomXmlProps CatSpec RemoteModel RemoteSpec RemoteProofs CommandModel CommandSpec CommandProps ReportModel ReportSpec ReportProps
  GenModel GenSpec GenProofs GenProps EddModel EddSpec EddProofs EddLineProofs EddMeanProofs EddProps EddRunSpec EddRunProofs EddValueProofs EddExitProofs.
Import ListNotations.
Local Open Scope nat_scope.

(** The commands of an EDD file, all carried out with success by a framework in the tuning mode: to the domains it had, those of the
    file are added, in order, each with the awareness, the elements, the configurations, the rules and the order of the parameters
    that the file says, and nothing else changes. *)
Theorem C79_built : forall os y need lines doc cmds m bs m', system_ok y -> names_ok (sy_root y) -> history y m -> mg_tuning m = true ->
  parse_edd lines = Ok doc -> Forall operators_ok doc -> edd_script lines = Ok cmds -> Forall (Forall tidy) cmds ->
  all_do os y need m (map as_request cmds) bs m' -> failures bs = 0 ->
  exists ds, see m' = see m ++ ds /\ Forall2 (domain_as_said (sy_root y) (mg_crits m)) (domains_of doc) ds.
Proof. exact file_built. Qed.
Print Assumptions C79_built.

(** And each value of the file is the one that is read in the recorded settings of its configuration, as the same text set on the
    parameter would be read.  [whole]: for an array, as many values as it has. *)
Theorem C79_values : forall os y need lines doc cmds m bs m', system_ok y -> names_ok (sy_root y) -> history y m -> mg_tuning m = true ->
  parse_edd lines = Ok doc -> Forall operators_ok doc -> edd_script lines = Ok cmds -> Forall (Forall tidy) cmds ->
  all_do os y need m (map as_request cmds) bs m' -> failures bs = 0 ->
  forall w v s x, In w (domains_of doc) -> In v (confs_of w) -> In (s, x) (sets (target v)) ->
  exists q e, names_parameter (sy_root y) s q /\ param_at (sy_root y) q e
    /\ (whole (e_kind e) x -> exists bb, access_set (sy_root y) (mg_fmt m) s x 0 (mg_main m) = Ok (true, bb)
          /\ get_recorded y (full_domain w) (full_conf v) s m' = access_get (sy_root y) (mg_fmt m) s 0 bb).
Proof. exact file_values. Qed.
Print Assumptions C79_values.

(** The rule of a configuration holds when all those of the file that concern it do. *)
Theorem C79_rules : forall root cs w v c, conf_as_said root cs w v c -> (forall i k, nth_error cs i = Some k -> NoDup (map fst (cty_map (cr_type k)))) ->
  (forall n, concerns n v -> exists r, says cs n r) ->
  exists r, vc_rule c = Some r /\ forall state, holds state r <-> (forall n s, concerns n v -> says cs n s -> holds state s).
Proof.
  intros root cs w v c [_ [[r [Er Hr]] _]] Nd Hs. destruct (C78_rule cs v Nd Hs None) as [r' [E' H']]. specialize (Hr None). rewrite E' in Hr. injection Hr as ->. exists r. auto.
Qed.
Print Assumptions C79_rules.

(** The whole chain: if the domain generator, given the criteria and the commands of an EDD file, ends with the code 0, then its document
    is that of a framework with the domains of the settings file and those of the EDD file, as said, with the values as said, and where
    no element is in two domains; no other request is made. *)
Theorem C79_code_zero : forall os ev fl y given cs lines doc cmds x, files_ok y given fl -> names_ok (sy_root y) -> Forall crit_ok cs -> (forall l, Permutation (os_order os l) l) ->
  parse_edd lines = Ok doc -> Forall operators_ok doc -> edd_script lines = Ok cmds -> Forall (Forall tidy) cmds -> Forall (Forall enterable) cmds ->
  g_main os ev fl (GenSpec.script cs (map as_request cmds)) = Ok (0, Some x) ->
  exists ks s m0 m ds, generator_start y given fl cs ks s m0 /\ export_domains y true m = Ok x
    /\ see m = see m0 ++ ds /\ Forall2 (domain_as_said (sy_root y) (mg_crits m0)) (domains_of doc) ds
    /\ (forall w v t z, In w (domains_of doc) -> In v (confs_of w) -> In (t, z) (sets (target v)) ->
          exists q e, names_parameter (sy_root y) t q /\ param_at (sy_root y) q e
            /\ (whole (e_kind e) z -> exists bb, access_set (sy_root y) (mg_fmt m0) t z 0 (mg_main m0) = Ok (true, bb)
                  /\ get_recorded y (full_domain w) (full_conf v) t m = access_get (sy_root y) (mg_fmt m0) t 0 bb))
    /\ (forall q, ~ shared m q)
    /\ (distinguishable (mg_crits m) -> (forall d, In d (ds_list (mg_doms m)) -> exportable y (mg_crits m) (mg_fmt m) d) ->
        forall x' allowed cs2 bb, like x x' -> same_criteria (mg_crits m) cs2 -> crits_ok cs2 -> List.length bb = footprint (sy_root y) ->
          exists s2 m2, import_all y cs2 true x' (Domains [] [] 0) = Ok (true, s2) /\ load y allowed cs2 s2 bb = Ok m2 /\ history y m2
            /\ same_domains y (mg_doms m) (mg_doms m2)).
Proof.
  intros os ev fl y given cs lines doc cmds x Fo Nm F P Hd Ho Hs Ht He G. pose proof (proj1 (proj2 Fo)) as Sy.
  assert (Forall (possible (ev_need ev)) cmds) as Ps by (rewrite (proj2 (even_file _ _ _ Hd Ho Hs)); apply script_possible).
  destruct (zero_exit os ev fl y given cs cmds x Fo F P Ps Ht He G) as [ks [s [m0 [m [bs [Gs [H0 [Tu [A [Z [Ex Ns]]]]]]]]]]].
  destruct (file_built os y _ lines doc cmds m0 bs m Sy Nm H0 Tu Hd Ho Hs Ht A Z) as [ds [Es Fd]].
  exists ks, s, m0, m, ds. split; [exact Gs|]. split; [exact Ex|]. split; [exact Es|]. split; [exact Fd|].
  split; [exact (file_values os y _ lines doc cmds m0 bs m Sy Nm H0 Tu Hd Ho Hs Ht A Z)|]. split; [exact Ns|].
  intros Di Xp. exact (document_back y m x Sy Nm (all_do_history _ _ _ _ _ _ _ A H0) Di Xp Ex).
Qed.
Print Assumptions C79_code_zero.

(** ** A file *)

Definition rx_lines : list str :=
  [ ln 0 "domainGroup: Audio";
    ln 1 "Mode Is Call";
    ln 1 "domain: Volume sequenceAware";
    ln 2 "conf: Loud";
    ln 3 "Devices Includes HS";
    ln 3 "component: /Sys/Sub";
    ln 4 "mix/a = 10";
    ln 4 "str = abc";
    ln 2 "conf: Quiet";
    ln 3 "ANY";
    ln 4 "Devices Excludes HS";
    ln 4 "Mode IsNot Call";
    ln 3 "/Sys/Sub/str = x";
    ln 3 "/Sys/Sub/mix/a = -3";
    ln 0 "domain: Balance";
    ln 1 "conf: Always";
    ln 2 "Mode IsNot Other";
    ln 2 "/Sys/Sub/neg = minus" ].
Definition rx_doc : list edd := match parse_edd rx_lines with Ok d => d | _ => [] end.
Definition rx_cmds : list EddModel.command := match edd_script rx_lines with Ok c => c | _ => [] end.

Lemma rx_parsed : parse_edd rx_lines = Ok rx_doc.
Proof. vm_compute. reflexivity. Qed.
Lemma rx_script : edd_script rx_lines = Ok rx_cmds.
Proof. vm_compute. reflexivity. Qed.

Lemma rx_operators : Forall operators_ok rx_doc.
Proof.
  vm_compute. repeat match goal with
  | |- Forall _ [] => apply Forall_nil
  | |- Forall _ (_ :: _) => apply Forall_cons
  | |- operators_ok _ => apply operators_intro; [first [intros H; discriminate H|intros _; left; reflexivity]|]
  end.
Qed.

Lemma rx_tidy : Forall (Forall tidy) rx_cmds.
Proof.
  assert (forallb (forallb (fun s => str_eqb (trim s) s)) rx_cmds = true) as E by (vm_compute; reflexivity). rewrite forallb_forall in E. apply Forall_forall. intros c Ic. apply E in Ic. cbv beta in Ic.
  rewrite forallb_forall in Ic. apply Forall_forall. intros s Is. apply Ic in Is. cbv beta in Is. apply str_eqb_eq in Is. unfold tidy. pose proof (trim_spec s) as T. rewrite Is in T. exact T.
Qed.

Lemma rx_enterable : Forall (Forall enterable) rx_cmds.
Proof.
  assert (forallb (forallb (forallb (fun c => negb (char_eqb c zero) && negb (char_eqb c newline)))) rx_cmds = true) as E by (vm_compute; reflexivity). rewrite forallb_forall in E.
  apply Forall_forall. intros c Ic. apply E in Ic. cbv beta in Ic. rewrite forallb_forall in Ic. apply Forall_forall. intros s Is. apply Ic in Is. cbv beta in Is. rewrite forallb_forall in Is.
  split; intros H; apply Is in H; discriminate H.
Qed.

Definition rx_x : xnode := match g_main plain silent gx_files (GenSpec.script gx_crits (map as_request rx_cmds)) with Ok (_, Some x) => x | _ => XText [] end.
Lemma rx_code : g_main plain silent gx_files (GenSpec.script gx_crits (map as_request rx_cmds)) = Ok (0, Some rx_x).
Proof. vm_compute. reflexivity. Qed.

Example C79_code_zero_nonvacuous :
  files_ok xd (fun _ => None) gx_files /\ names_ok (sy_root xd) /\ Forall crit_ok gx_crits /\ parse_edd rx_lines = Ok rx_doc /\ Forall operators_ok rx_doc
  /\ edd_script rx_lines = Ok rx_cmds /\ Forall (Forall tidy) rx_cmds /\ Forall (Forall enterable) rx_cmds
  /\ g_main plain silent gx_files (GenSpec.script gx_crits (map as_request rx_cmds)) = Ok (0, Some rx_x)
  /\ map full_domain (domains_of rx_doc) = [lit "Audio.Volume"; lit "Balance"]
  /\ map (fun w => map (fun v => (full_conf v, sets (target v))) (confs_of w)) (domains_of rx_doc)
     = [[(lit "Loud", [(lit "/Sys/Sub/mix/a", lit "10"); (lit "/Sys/Sub/str", lit "abc")]); (lit "Quiet", [(lit "/Sys/Sub/str", lit "x"); (lit "/Sys/Sub/mix/a", lit "-3")])];
        [(lit "Always", [(lit "/Sys/Sub/neg", lit "minus")])]].
Proof.
  split; [exact gx_files_ok|]. split; [exact xd_names|]. split; [exact gx_crits_ok|]. split; [exact rx_parsed|]. split; [exact rx_operators|]. split; [exact rx_script|].
  split; [exact rx_tidy|]. split; [exact rx_enterable|]. split; [exact rx_code|]. split; vm_compute; reflexivity.
Qed.

Example C79_built_nonvacuous : exists m bs m', history xd m /\ mg_tuning m = true /\ all_do plain xd (ev_need silent) m (map as_request rx_cmds) bs m' /\ failures bs = 0.
Proof.
  assert (Forall (possible (ev_need silent)) rx_cmds) as Ps by (rewrite (proj2 (even_file _ _ _ rx_parsed rx_operators rx_script)); apply script_possible).
  destruct (zero_exit plain silent gx_files xd _ gx_crits rx_cmds rx_x gx_files_ok gx_crits_ok (fun l => Permutation_refl l) Ps rx_tidy rx_enterable rx_code) as [ks [s [m0 [m [bs [_ [H0 [Tu [A [Z _]]]]]]]]]].
  exists m0, bs, m. auto.
Qed.

(** What is read of it in the end. *)
Example C79_values_nonvacuous : exists g, g_lines plain silent gx_files (input_lines [] (GenSpec.script gx_crits (map as_request rx_cmds))) g_new = Ok (Some g)
  /\ get_recorded xd (lit "Audio.Volume") (lit "Quiet") (lit "/Sys/Sub/mix/a") (gn_mgr g) = Ok (lit "-3")
  /\ get_recorded xd (lit "Audio.Volume") (lit "Loud") (lit "/Sys/Sub/str") (gn_mgr g) = Ok (lit "abc")
  /\ map vd_name (see (gn_mgr g)) = [lit "Audio.Volume"; lit "Balance"]
  /\ map (fun d => map vc_rule (vd_confs d)) (see (gn_mgr g))
     = [[Some (RComp true [RCrit 0 VIs 1; RCrit 1 VIncludes 2]); Some (RComp true [RCrit 0 VIs 1; RComp false [RCrit 1 VExcludes 2; RCrit 0 VIsNot 1]])]; [Some (RComp true [RCrit 0 VIsNot 0])]].
Proof.
  eexists. split; [vm_compute; reflexivity|]. repeat split; vm_compute; reflexivity.
Qed.

(** A configuration of the other file, in a structure with its parameters. *)
Definition rx_tree : elem :=
  Elem (lit "Sys") KdSystem
    [Elem (lit "amp") KdSubsystem [Elem (lit "gain") (KdParam (PInt true 2 (-50) 50)) []; Elem (lit "mute") (KdParam (PInt false 1 0 1)) []];
     Elem (lit "on") (KdParam (PInt false 1 0 1)) []].
Example C79_rules_nonvacuous :
  conf_as_said rx_tree ed_cs ed_place ed_place1 (VConf (lit "Loud") (Some (RComp true [RCrit 0 VIs 1; RCrit 1 VIncludes 1])) [[1]; [0; 0]; [0; 1]])
  /\ (forall i k, nth_error ed_cs i = Some k -> NoDup (map fst (cty_map (cr_type k))))
  /\ (forall n, concerns n ed_place1 -> exists r, says ed_cs n r).
Proof.
  split.
  - split; [vm_compute; reflexivity|]. split.
    + eexists. split; [reflexivity|]. intros old. vm_compute. reflexivity.
    + assert ((if is_aware ed_place then elements [] (target ed_place1) else added ed_place) = [lit "/Sys/on"; lit "/Sys/amp/gain"; lit "/Sys/amp/mute"]) as -> by (vm_compute; reflexivity).
      cbn [vc_order]. repeat apply Forall2_cons; [..|apply Forall2_nil]; (split; [vm_compute; reflexivity|eexists; split; [vm_compute; reflexivity|reflexivity]]).
  - split; [exact (proj1 C78_rule_nonvacuous)|exact (proj1 (proj2 C78_rule_nonvacuous))].
Qed.

(** ** What is not so *)

Lemma trim_tidy : forall s, trim s = s -> tidy s.
Proof. intros s E. unfold tidy. pose proof (trim_spec s) as T. rewrite E in T. exact T. Qed.

(** A well written file that says no impossible thing may still end with an error: in a sequence aware domain, a configuration
    without parameters makes a request without elements, that the framework refuses. *)
Definition rx_empty : list str := [ln 0 "domain: D sequenceAware"; ln 1 "conf: A"; ln 2 "Mode Is Call"].
Theorem C79_empty_sequence_refuted : exists lines doc cmds x, parse_edd lines = Ok doc /\ Forall operators_ok doc /\ Forall even doc /\ edd_script lines = Ok cmds
  /\ Forall (Forall tidy) cmds /\ Forall (Forall enterable) cmds
  /\ (exists w v, domains_of doc = [w] /\ confs_of w = [v] /\ is_aware w = true /\ sets (target v) = [])
  /\ g_main plain silent gx_files (GenSpec.script gx_crits (map as_request cmds)) = Ok (1, Some x).
Proof.
  exists rx_empty, [Edd KDomain (eo "D" "" "" true) [Edd KConf (eo "A" "" "" false) [Edd KRule (eo "Mode" "Is" "Call" false) []]]].
  exists [[lit "createDomain"; lit "D"]; [lit "setSequenceAwareness"; lit "D"; lit "true"]; [lit "createConfiguration"; lit "D"; lit "A"];
          [lit "setRule"; lit "D"; lit "A"; lit "All{     Mode Is Call }"]; [lit "setElementSequence"; lit "D"; lit "A"]]. eexists.
  match goal with |- ?P /\ ?O /\ ?E /\ ?S /\ ?R => assert (P) as HP by (vm_compute; reflexivity); assert (O) as HO by (repeat constructor; discriminate); assert (S) as HS by (vm_compute; reflexivity) end.
  split; [exact HP|]. split; [exact HO|]. split; [exact (proj1 (even_file _ _ _ HP HO HS))|]. split; [exact HS|].
  split; [repeat constructor; apply trim_tidy; reflexivity|]. split; [repeat constructor; cbn; intuition discriminate|].
  split; [eexists; eexists; repeat split; vm_compute; reflexivity|]. vm_compute. reflexivity.
Qed.
Print Assumptions C79_empty_sequence_refuted.
