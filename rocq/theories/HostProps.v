(** C81: the configuration file that the settings file tool gives to the framework. *)
From Coq Require Import List Arith ZArith Bool Ascii String Permutation Lia.
From Verif Require Import Base BaseProofs TextModel TextSpec CriterionModel CriterionSpec BlackboardModel TreeModel TreeSpec SyncModel DomainModel DomainSpec MgrModel MgrSpec LoadModel LoadSpec XmlModel DomXmlModel DomXmlSpec DomXmlHist
  MapModel TypeModel DeclModel DeclSpec DeclProofs DeclDemo GenModel GenSpec FileModel FileSpec FileProofs FileProps HostModel HostSpec HostProofs.
Import ListNotations.
Local Open Scope nat_scope.

(** The document is the same but for this: the locations of the plugins and the settings are gone, tuning is allowed, the port and the
    path of the structure are changed if asked. *)
Theorem C81_adapted : forall port path x,
  (configure port path x = None <-> gone x) /\ forall x', configure port path x = Some x' -> adapted port path x x'.
Proof.
  intros port path x. unfold configure. destruct (deleted x) eqn:E.
  - split; [split; [intros _; apply deleted_gone; exact E|reflexivity]|discriminate].
  - split; [split; [discriminate|intros G; apply deleted_gone in G; rewrite G in E; discriminate]|]. intros x' H. injection H as <-. apply host_adapted.
Qed.
Print Assumptions C81_adapted.

(** Of a configuration that follows its schema it makes another one, with the same system, tuning allowed, no plugin, no settings, and
    the path of the structure in the folder. *)
Theorem C81_configured : forall folder x nm tuning port plugins structure settings, configures x nm tuning port plugins structure settings ->
  exists x', host_file folder x = Some x' /\ configures x' nm true port [] (folder ++ lit "/" ++ structure) None.
Proof.
  intros folder x nm tuning port plugins structure settings H. unfold host_file. destruct (C81_adapted None (Some folder) x) as [G A]. destruct (configure None (Some folder) x) as [x'|] eqn:E.
  - exists x'. split; [reflexivity|]. exact (still_configures None (Some folder) x x' _ _ _ _ _ _ H (A x' eq_refl) port eq_refl).
  - exfalso. destruct (proj1 G eq_refl) as [Q|Q]; rewrite (proj1 H) in Q; discriminate Q.
Qed.
Print Assumptions C81_configured.

(** With the port that is asked (script run on its own). *)
Theorem C81_port : forall p port' folder x nm tuning port plugins structure settings, configures x nm tuning port plugins structure settings ->
  ~ In "012"%char p -> ~ In "-"%char p -> int_text p port' -> (0 <= port' <= 65535)%Z ->
  exists x', configure (Some p) folder x = Some x' /\ configures x' nm true port' [] (match folder with Some d => d ++ lit "/" ++ structure | None => structure end) None.
Proof.
  intros p port' folder x nm tuning port plugins structure settings H Np Nm Ip Rp. destruct (C81_adapted (Some p) folder x) as [G A]. destruct (configure (Some p) folder x) as [x'|] eqn:E.
  - exists x'. split; [reflexivity|]. refine (still_configures (Some p) folder x x' _ _ _ _ _ _ H (A x' eq_refl) port' _). split; [exact Np|].
    intros y Ey. right. exists p. split; [exact Ey|]. split; [exact Ip|]. split; [exact Rp|auto].
  - exfalso. destruct (proj1 G eq_refl) as [Q|Q]; rewrite (proj1 H) in Q; discriminate Q.
Qed.
Print Assumptions C81_port.

(** The policy of the connector: nothing missing is a failure, no remote interface. *)
Definition connector_policy : policy := Policy false false true.

(** Without plugins every subsystem is virtual: no hardware is reached. *)
Theorem C81_virtual : forall ou t, library ou true [] t = Some virtual_plugin.
Proof. intros ou t. unfold library. cbn [flat_map rev app find fst snd]. destruct (str_eqb (lit "Virtual") t); reflexivity. Qed.
Print Assumptions C81_virtual.

Lemma no_plugins : forall opens, load_plugins opens [] = ([], []).
Proof. reflexivity. Qed.

(** What the start of the connector from this file needs, and what it gives. *)
Theorem C81_start : forall ou fuel uri cs folder x x' nm tuning port plugins structure settings y m,
  configures x nm tuning port plugins structure settings -> host_file folder x = Some x' -> ou_doc ou uri = Some x' ->
  (start_files ou connector_policy fuel uri cs = Ok (y, m) <->
   exists u d d', ou_uri ou uri (folder ++ lit "/" ++ structure) = Some u /\ ou_doc ou u = Some d /\ spliced ou u d d'
     /\ load_system (library ou true []) (ou_hw ou) fuel nm d' = Ok y
     /\ start_up y (ou_answers ou y) true cs (Domains [] [] 0) = Ok m).
Proof.
  intros ou fuel uri cs folder x x' nm tuning port plugins structure settings y m H Hx Ed. destruct (C81_configured folder x _ _ _ _ _ _ H) as [x2 [E2 C2]]. rewrite Hx in E2. injection E2 as <-.
  rewrite (C74_started ou connector_policy fuel uri cs x' nm true port [] _ None y m Ed C2). split.
  - intros [loaded [left [u [d [d' [s [L [_ [Eu [Eo [Sp [Ls [St [Su _]]]]]]]]]]]]]]. rewrite no_plugins in L. injection L as <- <-. cbn in St. subst s. exists u, d, d'. auto.
  - intros [u [d [d' [Eu [Eo [Sp [Ls Su]]]]]]]. exists [], [], u, d, d', (Domains [] [] 0). split; [apply no_plugins|]. split; [left; reflexivity|]. split; [exact Eu|]. split; [exact Eo|]. split; [exact Sp|].
    split; [exact Ls|]. split; [reflexivity|]. split; [exact Su|left; reflexivity].
Qed.
Print Assumptions C81_start.

(** So the generator of C73 and C80 may be given, as files, what this start gives: with good files, the files are good for a generator,
    and its start is this one, then the tuning mode, which is allowed whatever the configuration of the target says. *)
Theorem C81_generator : forall ou uri folder x x' nm tuning port plugins structure settings,
  configures x nm tuning port plugins structure settings -> host_file folder x = Some x' -> ou_doc ou uri = Some x' -> files_good ou uri (folder ++ lit "/" ++ structure) None ->
  forall cs, crits_ok cs -> exists fuel, forall f y m, fuel <= f -> start_files ou connector_policy f uri cs = Ok (y, m) ->
    let fl := GFiles (Some (y, ou_answers ou y, true)) None in
    files_ok y (ou_answers ou y) fl /\ mg_allowed m = true
    /\ forall g, mg_crits (gn_mgr g) = cs -> gn_loaded g = false ->
         g_start fl g = do z <- set_tuning y true [] m; Ok (if fst z then Some (Gen y (snd z) true (gn_errors g)) else None).
Proof.
  intros ou uri folder x x' nm tuning port plugins structure settings H Hx Ed Fg. destruct (C81_configured folder x _ _ _ _ _ _ H) as [x2 [E2 C2]]. rewrite Hx in E2. injection E2 as <-.
  intros cs Ck. destruct (C74_sound ou connector_policy uri cs x' nm true port [] _ None Ed C2 Fg Ck) as [fuel Hf]. exists fuel. intros f y m Lf Es fl.
  destruct (Hf f Lf) as [_ Hy]. destruct (Hy y m Es) as [Sy [_ [Al _]]].
  apply (C81_start ou f uri cs folder x x' nm tuning port plugins structure settings y m H Hx Ed) in Es. destruct Es as [u [d [d' [Eu [Eo [Sp [Ls Su]]]]]]].
  split; [|split; [exact Al|]].
  - split; [reflexivity|]. split; [exact Sy|]. split; [apply Fg|]. intros z Q. discriminate Q.
  - intros g Eg Lg. unfold g_start, fl. rewrite Lg. cbn [gf_structure gf_settings g_settings obind]. rewrite Eg, Su. reflexivity.
Qed.
Print Assumptions C81_generator.

(** ** An example: the configuration of C74, on a target where tuning is not allowed *)

Local Open Scope string_scope.
Definition hx_target : xnode := fx_config [("SystemClassName", "Audio"); ("ServerPort", "5000"); ("TuningAllowed", "false")].
Definition hx_uri (base path : str) : option str :=
  match path with "/"%char :: _ => Some path | _ => Some (fx_folder base ++ path)%list end.
Definition hx (config : xnode) : outer :=
  Outer hx_uri (fun uri => if str_eqb uri (lit "/tmp/pf.xml") then host_file (lit "/etc") config else fx_docs config uri) fx_opens fx_brings (fun _ _ => None) no_error (fun _ => true).
Local Open Scope nat_scope.

Definition hx_host : xnode := match host_file (lit "/etc") hx_target with Some x => x | None => XText [] end.

Lemma hx_configures : configures hx_target (lit "Audio") false 5000 [fx_second; fx_first] (lit "structure/system.xml") (Some (lit "settings/domains.xml")).
Proof.
  split; [reflexivity|]. split; [exact (check_chars hx_target eq_refl)|]. split; [reflexivity|]. split; [discriminate|].
  split; [apply attr_bool_Ok; vm_compute; reflexivity|]. split; [apply (attr_num_Ok false 2); [exact (check_chars hx_target eq_refl)|vm_compute; reflexivity]|].
  eexists _, _, _. split; [reflexivity|]. split; [reflexivity|]. split; [reflexivity|]. split; [intros l [<-|[]]; reflexivity|]. split; [reflexivity|].
  split; [reflexivity|]. split; [reflexivity|]. split; [discriminate|]. right. eexists _, _, _. split; [reflexivity|]. split; [reflexivity|]. split; [reflexivity|].
  split; [reflexivity|]. split; [reflexivity|]. split; [discriminate|reflexivity].
Qed.

Lemma hx_good : files_good (hx hx_target) (lit "/tmp/pf.xml") (lit "/etc" ++ lit "/" ++ lit "structure/system.xml") None.
Proof.
  split; [intros base path Q; cbn in Q; unfold hx_uri in Q; destruct path as [|[[] [] [] [] [] [] [] []] p]; discriminate Q|]. split.
  { intros u d c c' Eu Ed Hc Hs. assert (u = lit "/etc/structure/system.xml") as -> by (vm_compute in Eu; injection Eu as <-; reflexivity).
    assert (d = fx_structure) as -> by (injection Ed as <-; reflexivity). apply sub_good. destruct Hc as [<-|[<-|[]]].
    - destruct Hs as [[Q _]|[_ [_ [w [Ew Er]]]]]; [destruct Q; reflexivity|].
      assert (w = lit "/etc/structure/card.xml") as -> by (vm_compute in Ew; injection Ew as <-; reflexivity). left. injection Er as <-. reflexivity.
    - destruct Hs as [[_ ->]|[Q _]]; [right; left; reflexivity|discriminate Q]. }
  split.
  { intros f t p H. cbn in H. unfold fx_brings in H. destruct (str_eqb f fx_second); [|destruct H]. destruct H as [H|[]]. injection H as <- <-. cbn. lia. }
  split; [intros y o e x bytes _ _ Q; discriminate Q|]. intros p u x Q. discriminate Q.
Qed.

Example C81_nonvacuous : configures hx_target (lit "Audio") false 5000 [fx_second; fx_first] (lit "structure/system.xml") (Some (lit "settings/domains.xml"))
  /\ host_file (lit "/etc") hx_target = Some hx_host /\ ou_doc (hx hx_target) (lit "/tmp/pf.xml") = Some hx_host
  /\ files_good (hx hx_target) (lit "/tmp/pf.xml") (lit "/etc" ++ lit "/" ++ lit "structure/system.xml") None
  /\ hx_host = el "ParameterFrameworkConfiguration" [("SystemClassName", "Audio"); ("ServerPort", "5000"); ("TuningAllowed", "true")]%string
                 [el "SubsystemPlugins" [] []; XText (lit " "); el "StructureDescriptionFileLocation" [("Path", "/etc/structure/system.xml")]%string []]
  /\ exists y m, start_files (hx hx_target) connector_policy 5 (lit "/tmp/pf.xml") [] = Ok (y, m)
       /\ map e_name (e_children (sy_root y)) = [lit "card"; lit "policy"] /\ ds_list (mg_doms m) = [] /\ mg_allowed m = true.
Proof.
  split; [exact hx_configures|]. split; [reflexivity|]. split; [reflexivity|]. split; [exact hx_good|]. split; [vm_compute; reflexivity|].
  destruct (start_files (hx hx_target) connector_policy 5 (lit "/tmp/pf.xml") []) as [[y m]| | |] eqn:E; [|vm_compute in E; discriminate E..]. exists y, m. split; [reflexivity|].
  assert (K : match start_files (hx hx_target) connector_policy 5 (lit "/tmp/pf.xml") [] with
              | Ok (y, m) => Some (map e_name (e_children (sy_root y)), ds_list (mg_doms m), mg_allowed m)
              | _ => None
              end = Some ([lit "card"; lit "policy"], [], true)) by (vm_compute; reflexivity).
  rewrite E in K. injection K as K1 K2 K3. auto.
Qed.

Example C81_port_nonvacuous : int_text (lit "6000") 6000 /\ ~ In "012"%char (lit "6000") /\ ~ In "-"%char (lit "6000").
Proof.
  split; [|vm_compute; intuition discriminate]. assert (int_attr false 2 (lit "ServerPort") 0 (el "X" [("ServerPort", "6000")]%string []) 6000) as H.
  { apply (attr_num_Ok false 2); [exact (check_chars (el "X" [("ServerPort", "6000")]%string []) eq_refl)|vm_compute; reflexivity]. }
  destruct H as [[Q _]|[s [E [I _]]]]; [discriminate Q|]. injection E as <-. exact I.
Qed.

(** ** What is not so *)

(** A configuration with an absolute path of the structure is good for the framework but not for the tool: the folder is put before
    the path all the same. *)
Definition hx_absolute : xnode := el "ParameterFrameworkConfiguration" [("SystemClassName", "Audio"); ("ServerPort", "5000"); ("TuningAllowed", "true")]%string
  [el "SubsystemPlugins" [] []; el "StructureDescriptionFileLocation" [("Path", "/etc/structure/system.xml")]%string []].
Theorem C81_absolute_path_refuted : exists x x' y m, host_file (lit "/etc") x = Some x'
  /\ ou_doc (hx x) (lit "/etc/pf.xml") = Some x /\ start_files (hx x) connector_policy 5 (lit "/etc/pf.xml") [] = Ok (y, m)
  /\ ou_doc (hx x) (lit "/tmp/pf.xml") = Some x' /\ forall fuel cs, start_files (hx x) connector_policy fuel (lit "/tmp/pf.xml") cs = Err.
Proof.
  destruct (start_files (hx hx_absolute) connector_policy 5 (lit "/etc/pf.xml") []) as [[y m]| | |] eqn:E; [|vm_compute in E; discriminate E..].
  exists hx_absolute. eexists. exists y, m. split; [reflexivity|]. split; [reflexivity|]. split; [exact E|]. split; [reflexivity|]. intros fuel cs. reflexivity.
Qed.
Print Assumptions C81_absolute_path_refuted.

(** Doing it twice is not the same as once. *)
Theorem C81_twice_refuted : exists folder x x' x'', host_file folder x = Some x' /\ host_file folder x' = Some x'' /\ x'' <> x'.
Proof.
  exists (lit "/etc"), hx_target. eexists. eexists. split; [vm_compute; reflexivity|]. split; [vm_compute; reflexivity|]. intros Q. discriminate Q.
Qed.
Print Assumptions C81_twice_refuted.
