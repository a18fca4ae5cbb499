(** C78: what an EDD file becomes. *)
From Coq Require Import List Arith ZArith Bool Ascii String Permutation.
From Verif Require Import Base BaseProofs TextSpec CriterionModel CriterionSpec CriterionProofs RuleModel RuleSpec RuleProofs EddModel EddSpec EddProofs EddLineProofs EddMeanProofs.
Import ListNotations.
Local Open Scope nat_scope.

(** ** A file *)

Definition ln (d : nat) (s : string) : str := repeat tab d ++ lit s.

(** Two configurations; the one has the rules of a type of configurations, and both those of the group of domains. *)
Definition ed_lines : list str :=
  [ ln 0 "# volumes";
    ln 0 "domainGroup: Audio";
    ln 1 "Mode Is Call";
    ln 1 "confType: Loud";
    ln 2 "Device Includes Speaker";
    ln 1 "domain: Volume sequenceAware";
    ln 2 "conf: Loud";
    ln 3 "component: /Sys/amp";
    ln 4 "gain = 10";
    ln 4 "mute = 0";
    ln 3 "/Sys/on = 1";
    ln 0 "";
    ln 2 "conf: Quiet";
    ln 3 "ANY";
    ln 4 "Device Excludes Speaker";
    ln 4 "Mode IsNot Call";
    ln 3 "/Sys/on = 0";
    ln 3 "component: /Sys/amp";
    ln 4 "mute = 1";
    ln 4 "gain = 0" ].

Definition eo (n v e : string) (a : bool) : eopts := EOpts (lit n) (lit v) (lit e) a.
Definition ed_mode : edd := Edd KRule (eo "Mode" "Is" "Call" false) [].
Definition ed_loud : edd := Edd KGroupConf (eo "Loud" "" "" false) [Edd KRule (eo "Device" "Includes" "Speaker" false) []].
Definition ed_conf1 : edd :=
  Edd KConf (eo "Loud" "" "" false)
    [Edd KGroupPath (eo "/Sys/amp" "" "" false)
       [Edd KPath (eo "gain" "10" "" false) []; Edd KPath (eo "mute" "0" "" false) []];
     Edd KPath (eo "/Sys/on" "1" "" false) []].
Definition ed_conf2 : edd :=
  Edd KConf (eo "Quiet" "" "" false)
    [Edd KOperator (eo "ANY" "" "" false)
       [Edd KRule (eo "Device" "Excludes" "Speaker" false) []; Edd KRule (eo "Mode" "IsNot" "Call" false) []];
     Edd KPath (eo "/Sys/on" "0" "" false) [];
     Edd KGroupPath (eo "/Sys/amp" "" "" false)
       [Edd KPath (eo "mute" "1" "" false) []; Edd KPath (eo "gain" "0" "" false) []]].
Definition ed_volume : edd := Edd KDomain (eo "Volume" "" "" true) [ed_conf1; ed_conf2].
Definition ed_audio : edd := Edd KGroupDomain (eo "Audio" "" "" false) [ed_mode; ed_loud; ed_volume].
Definition ed_doc : list edd := [ed_audio].

Definition ed_place : place := [([ed_mode; ed_loud], ed_volume); ([], ed_audio)].
Definition ed_place1 : place := ([], ed_conf1) :: ed_place.


Definition is_nil (s : str) : bool := match s with [] => true | _ :: _ => false end.

Lemma trimmed_dec : forall s, negb (py_blank (hd "x"%char s)) && negb (py_blank (last s "x"%char)) = true -> trimmed s.
Proof.
  intros s H. apply andb_true_iff in H. destruct H as [H1 H2]. apply negb_true_iff in H1, H2. split.
  - intros c r ->. exact H1.
  - intros c r ->. rewrite last_last in H2. exact H2.
Qed.

Lemma no_char_dec : forall c s, forallb (fun x => negb (char_eqb x c)) s = true -> no_char c s.
Proof.
  intros c s H I. rewrite forallb_forall in H. specialize (H c I). cbv beta in H. rewrite char_eqb_refl in H. discriminate H.
Qed.

Lemma plain_dec : forall s, negb (is_nil s) && forallb word_char s = true -> plain_word s.
Proof.
  intros s H. apply andb_true_iff in H. destruct H as [H1 H2]. split; [intros ->; discriminate H1|]. intros c I. rewrite forallb_forall in H2. auto.
Qed.

Lemma ln_domain : forall tag k n, In (lit tag, k) [(lit "domain", KDomain); (lit "domainGroup", KGroupDomain); (lit "supDomain", KGroupDomain)] ->
  forallb (fun x => negb (char_eqb x " "%char)) (lit n) && (negb (py_blank (hd "x"%char (lit n))) && negb (py_blank (last (lit n) "x"%char))) = true ->
  line_means (lit tag ++ lit ": " ++ lit n) k (eo n "" "" false).
Proof.
  intros tag k n H1 H2. apply andb_true_iff in H2. destruct H2 as [H2 H3]. rewrite <- (app_nil_r (lit n)).
  apply (lm_domain (lit tag) k [] (lit n) []); auto; try (intros c []). apply trimmed_dec; exact H3. apply no_char_dec; exact H2.
Qed.

Lemma ln_aware : forall tag k n, In (lit tag, k) [(lit "domain", KDomain); (lit "domainGroup", KGroupDomain); (lit "supDomain", KGroupDomain)] ->
  negb (is_nil (lit n)) && (forallb (fun x => negb (char_eqb x " "%char)) (lit n) && (negb (py_blank (hd "x"%char (lit n))) && negb (py_blank (last (lit n) "x"%char)))) = true ->
  line_means (lit tag ++ lit ": " ++ lit n ++ lit " sequenceAware") k (eo n "" "" true).
Proof.
  intros tag k n H1 H2. apply andb_true_iff in H2. destruct H2 as [H0 H2]. apply andb_true_iff in H2. destruct H2 as [H2 H3]. rewrite <- (app_nil_r (lit " sequenceAware")).
  apply (lm_aware (lit tag) k [] (lit n) []); auto; try (intros c []). apply trimmed_dec; exact H3.
  destruct (lit n); [discriminate H0|discriminate]. apply no_char_dec; exact H2.
Qed.

Lemma ln_conf : forall tag k n, In (lit tag, k) [(lit "conf", KConf); (lit "confGroup", KGroupConf); (lit "confType", KGroupConf); (lit "supConf", KGroupConf); (lit "component", KGroupPath)] ->
  forallb (fun x => negb (char_eqb x "="%char)) (lit n) && (negb (py_blank (hd "x"%char (lit n))) && negb (py_blank (last (lit n) "x"%char))) = true ->
  line_means (lit tag ++ lit ": " ++ lit n) k (eo n "" "" false).
Proof.
  intros tag k n H1 H2. apply andb_true_iff in H2. destruct H2 as [H2 H3]. rewrite <- (app_nil_r (lit n)).
  apply (lm_conf (lit tag) k [] (lit n) []); auto; try (intros c []). apply trimmed_dec; exact H3. apply no_char_dec; exact H2.
Qed.

Lemma ln_path : forall n v, negb (char_eqb (hd "#"%char (lit n)) "#"%char) &&
  (forallb (fun x => negb (char_eqb x "="%char)) (lit n) && (forallb (fun x => negb (char_eqb x ":"%char)) (lit n)
   && ((negb (py_blank (hd "x"%char (lit n))) && negb (py_blank (last (lit n) "x"%char)))
       && (negb (py_blank (hd "x"%char (lit v))) && negb (py_blank (last (lit v) "x"%char)))))) = true ->
  line_means (lit n ++ lit " = " ++ lit v) KPath (eo n v "" false).
Proof.
  intros n v H. apply andb_true_iff in H. destruct H as [H1 H]. apply andb_true_iff in H. destruct H as [H2 H].
  apply andb_true_iff in H. destruct H as [H3 H]. apply andb_true_iff in H. destruct H as [H4 H5]. rewrite <- (app_nil_r (lit v)).
  apply (lm_path (lit n) (lit " ") (lit " ") (lit v) []); auto using trimmed_dec, no_char_dec; try (intros c [<-|[]]; reflexivity).
  - intros E. rewrite E in H1. discriminate H1.
  - intros r E. rewrite E in H1. discriminate H1.
  - intros c [].
Qed.

Lemma ln_rule : forall c v s, negb (is_nil (lit c)) && forallb word_char (lit c) && (negb (is_nil (lit s)) && forallb word_char (lit s))
    && negb (str_eqb (firstn 3 (lit c)) (lit "ANY")) && negb (str_eqb (firstn 3 (lit c)) (lit "ALL")) = true ->
  In (lit v) [lit "Is"; lit "IsNot"; lit "Includes"; lit "Excludes"] ->
  line_means (lit c ++ lit " " ++ lit v ++ lit " " ++ lit s) KRule (eo c v s false).
Proof.
  intros c v s H Hv. repeat (apply andb_true_iff in H; destruct H as [H ?]). rewrite <- (app_nil_r (lit s)).
  apply (lm_rule (lit c) (lit v) (lit s) []); auto.
  - apply plain_dec. apply andb_true_iff; auto.
  - intros r E. rewrite E in H1. discriminate H1.
  - intros r E. rewrite E in H0. discriminate H0.
  - apply plain_dec. exact H2.
  - intros x [].
Qed.

(** ** Reading *)

(** A file in which each line says an element, with one more tabulation than the element in which it is, and where each element is in
    one that may have it, is read as these elements. *)
Theorem C78_read : forall doc lines, written 0 doc lines -> Forall (shaped KRoot) doc -> parse_edd lines = Ok doc.
Proof. exact written_file. Qed.
Print Assumptions C78_read.

Lemma ed_written : written 0 ed_doc ed_lines.
Proof.
  unfold ed_lines, ed_doc. apply wr_nothing; [apply (sn_comment 0)|].
  change (written 0 [ed_audio] ((repeat tab 0 ++ (lit "domainGroup" ++ lit ": " ++ lit "Audio")) :: skipn 2 ed_lines ++ [])).
  apply wr_element; [apply ln_domain; [cbn; auto|reflexivity]| |constructor].
  change (skipn 2 ed_lines) with ((repeat tab 1 ++ (lit "Mode" ++ lit " " ++ lit "Is" ++ lit " " ++ lit "Call")) :: [] ++ skipn 3 ed_lines).
  apply wr_element; [apply ln_rule; [reflexivity|cbn; auto]|constructor|].
  change (skipn 3 ed_lines) with ((repeat tab 1 ++ (lit "confType" ++ lit ": " ++ lit "Loud")) :: [ln 2 "Device Includes Speaker"] ++ skipn 5 ed_lines).
  apply wr_element; [apply ln_conf; [cbn; auto 10|reflexivity]| |].
  { change [ln 2 "Device Includes Speaker"] with ((repeat tab 2 ++ (lit "Device" ++ lit " " ++ lit "Includes" ++ lit " " ++ lit "Speaker")) :: [] ++ []).
    apply wr_element; [apply ln_rule; [reflexivity|cbn; auto]|constructor|constructor]. }
  change (skipn 5 ed_lines) with ((repeat tab 1 ++ (lit "domain" ++ lit ": " ++ lit "Volume" ++ lit " sequenceAware")) :: skipn 6 ed_lines ++ []).
  apply wr_element; [apply ln_aware; [cbn; auto|reflexivity]| |constructor].
  change (skipn 6 ed_lines) with ((repeat tab 2 ++ (lit "conf" ++ lit ": " ++ lit "Loud")) :: firstn 4 (skipn 7 ed_lines) ++ skipn 11 ed_lines).
  apply wr_element; [apply ln_conf; [cbn; auto 10|reflexivity]| |].
  { change (firstn 4 (skipn 7 ed_lines)) with ((repeat tab 3 ++ (lit "component" ++ lit ": " ++ lit "/Sys/amp")) :: firstn 2 (skipn 8 ed_lines) ++ [ln 3 "/Sys/on = 1"]).
    apply wr_element; [apply ln_conf; [cbn; auto 10|reflexivity]| |].
    { change (firstn 2 (skipn 8 ed_lines)) with ((repeat tab 4 ++ (lit "gain" ++ lit " = " ++ lit "10")) :: [] ++ (repeat tab 4 ++ (lit "mute" ++ lit " = " ++ lit "0")) :: [] ++ []).
      apply wr_element; [apply ln_path; reflexivity|constructor|].
      apply wr_element; [apply ln_path; reflexivity|constructor|constructor]. }
    change [ln 3 "/Sys/on = 1"] with ((repeat tab 3 ++ (lit "/Sys/on" ++ lit " = " ++ lit "1")) :: [] ++ []).
    apply wr_element; [apply ln_path; reflexivity|constructor|constructor]. }
  change (skipn 11 ed_lines) with (ln 0 "" :: skipn 12 ed_lines). apply wr_nothing; [constructor; intros c []|].
  change (skipn 12 ed_lines) with ((repeat tab 2 ++ (lit "conf" ++ lit ": " ++ lit "Quiet")) :: skipn 13 ed_lines ++ []).
  apply wr_element; [apply ln_conf; [cbn; auto 10|reflexivity]| |constructor].
  change (skipn 13 ed_lines) with ((repeat tab 3 ++ (lit "ANY" ++ [])) :: firstn 2 (skipn 14 ed_lines) ++ skipn 16 ed_lines).
  apply wr_element; [apply lm_operator; [left; reflexivity|intros c []]| |].
  { change (firstn 2 (skipn 14 ed_lines)) with
      ((repeat tab 4 ++ (lit "Device" ++ lit " " ++ lit "Excludes" ++ lit " " ++ lit "Speaker")) :: [] ++ (repeat tab 4 ++ (lit "Mode" ++ lit " " ++ lit "IsNot" ++ lit " " ++ lit "Call")) :: [] ++ []).
    apply wr_element; [apply ln_rule; [reflexivity|cbn; auto]|constructor|].
    apply wr_element; [apply ln_rule; [reflexivity|cbn; auto]|constructor|constructor]. }
  change (skipn 16 ed_lines) with ((repeat tab 3 ++ (lit "/Sys/on" ++ lit " = " ++ lit "0")) :: [] ++ skipn 17 ed_lines).
  apply wr_element; [apply ln_path; reflexivity|constructor|].
  change (skipn 17 ed_lines) with ((repeat tab 3 ++ (lit "component" ++ lit ": " ++ lit "/Sys/amp")) :: skipn 18 ed_lines ++ []).
  apply wr_element; [apply ln_conf; [cbn; auto 10|reflexivity]| |constructor].
  change (skipn 18 ed_lines) with ((repeat tab 4 ++ (lit "mute" ++ lit " = " ++ lit "1")) :: [] ++ (repeat tab 4 ++ (lit "gain" ++ lit " = " ++ lit "0")) :: [] ++ []).
  apply wr_element; [apply ln_path; reflexivity|constructor|].
  apply wr_element; [apply ln_path; reflexivity|constructor|constructor].
Qed.

Lemma ed_shaped : Forall (shaped KRoot) ed_doc.
Proof. apply (parsed_shaped ed_lines). vm_compute. reflexivity. Qed.

Example C78_read_nonvacuous : written 0 ed_doc ed_lines /\ Forall (shaped KRoot) ed_doc /\ parse_edd ed_lines = Ok ed_doc.
Proof. split; [exact ed_written|]. split; [exact ed_shaped|]. vm_compute. reflexivity. Qed.

(** Any other file is refused, or read as elements each of which is in one that may have it. *)
Theorem C78_read_or_refused : forall lines, parse_edd lines = Err \/ exists doc, parse_edd lines = Ok doc /\ Forall (shaped KRoot) doc.
Proof.
  intros lines. destruct (parse_total lines) as [H|[doc H]]; [left; exact H|right]. exists doc. split; [exact H|]. exact (parsed_shaped _ _ H).
Qed.
Print Assumptions C78_read_or_refused.

(** The README has "BandRinging is Modem" in an example: it is refused. *)
Example C78_read_or_refused_nonvacuous :
  parse_edd [ln 0 "domain: ExternalDSP"; ln 1 "conf: Bind"; ln 2 "BandRinging is Modem"] = Err
  /\ parse_edd [ln 0 "domain: D"; ln 2 "conf: C"] = Err
  /\ parse_edd [ln 0 "domain: D"; ln 1 "/Sys/on = 1"] = Err
  /\ parse_edd ed_lines = Ok ed_doc.
Proof. repeat split; vm_compute; reflexivity. Qed.

(** ** Commands *)

(** The commands are those of [script], or the file is refused because two configurations of a domain do not set the same parameters. *)
Theorem C78_script : forall lines doc, parse_edd lines = Ok doc -> Forall operators_ok doc ->
  (Forall even doc -> edd_script lines = Ok (script doc)) /\ (~ Forall even doc -> edd_script lines = Err).
Proof.
  intros lines doc H Ho. unfold edd_script. rewrite H. cbn [obind].
  destruct (commands_spec doc (parsed_shaped _ _ H) Ho) as [[E ->]|[E ->]]; split; intros X; try contradiction; reflexivity.
Qed.
Print Assumptions C78_script.

(** In particular, from the text to the commands. *)
Theorem C78_text_to_script : forall lines doc, written 0 doc lines -> Forall (shaped KRoot) doc -> Forall even doc ->
  edd_script lines = Ok (script doc).
Proof.
  intros lines doc W S E. destruct (C78_script lines doc (written_file _ _ W S) (written_operators _ _ _ W)) as [G _]. exact (G E).
Qed.
Print Assumptions C78_text_to_script.

Lemma even_leaf : forall k o, k <> KDomain -> k <> KGroupDomain -> even (Edd k o []).
Proof. intros k o N1 N2. constructor; [intros [X|X]; contradiction|constructor]. Qed.

Lemma ed_even : Forall even ed_doc.
Proof.
  destruct (commands_spec ed_doc ed_shaped (written_operators _ _ _ ed_written)) as [[E _]|[_ E]]; [exact E|].
  exfalso. vm_compute in E. discriminate E.
Qed.

Example C78_script_nonvacuous :
  Forall operators_ok ed_doc /\ Forall even ed_doc
  /\ map (fun c => hd [] c) (script ed_doc)
     = map lit ["createDomain"; "setSequenceAwareness"; "addElement"; "addElement"; "addElement";
                "createConfiguration"; "setRule"; "setElementSequence"; "setConfigurationParameter"; "setConfigurationParameter"; "setConfigurationParameter";
                "createConfiguration"; "setRule"; "setElementSequence"; "setConfigurationParameter"; "setConfigurationParameter"; "setConfigurationParameter"]%string
  /\ In (map lit ["setRule"; "Audio.Volume"; "Loud"; "All{     Mode Is Call ,     Device Includes Speaker }"]%string) (script ed_doc)
  /\ In (map lit ["setConfigurationParameter"; "Audio.Volume"; "Quiet"; "/Sys/amp/mute"; "1"]%string) (script ed_doc)
  /\ edd_script [ln 0 "domain: D"; ln 1 "conf: A"; ln 2 "/Sys/on = 1"; ln 1 "conf: B"; ln 2 "/Sys/off = 1"] = Err.
Proof.
  split; [exact (written_operators _ _ _ ed_written)|]. split; [exact ed_even|]. split; [vm_compute; reflexivity|].
  split; [|split; [|vm_compute; reflexivity]].
  - vm_compute. do 6 right. left. reflexivity.
  - vm_compute. do 15 right. left. reflexivity.
Qed.

(** The domains of the script are the domains of the file, and their configurations are those that are in them, each once. *)
Theorem C78_places : forall lines doc, parse_edd lines = Ok doc ->
  (NoDup (domains_of doc) /\ forall w, In w (domains_of doc) <-> in_file doc w /\ ed_kind (target w) = KDomain)
  /\ (forall w, In w (domains_of doc) ->
        NoDup (confs_of w) /\ forall v, In v (confs_of w) <-> in_file doc v /\ ed_kind (target v) = KConf /\ exists u, v = u ++ w).
Proof.
  intros lines doc H. pose proof (parsed_shaped _ _ H) as S. split.
  - split; [apply domains_of_NoDup|]. intros w. apply domains_of_In. exact S.
  - intros w Hw. split; [apply confs_of_NoDup|]. intros v. apply (confs_of_In doc); assumption.
Qed.
Print Assumptions C78_places.

Example C78_places_nonvacuous :
  domains_of ed_doc = [ed_place] /\ confs_of ed_place = [ed_place1; ([ed_conf1], ed_conf2) :: ed_place] /\ in_file ed_doc ed_place1.
Proof.
  split; [reflexivity|]. split; [reflexivity|]. eapply in_below with (a := [ed_conf2]); [|reflexivity].
  eapply in_below with (a := []); [|reflexivity]. eapply in_top with (a := []). reflexivity.
Qed.

(** Each configuration sets each element that has been added to its domain, and no other. *)
Theorem C78_same_parameters : forall lines doc cmds, parse_edd lines = Ok doc -> Forall operators_ok doc -> edd_script lines = Ok cmds ->
  forall w v, In w (domains_of doc) -> In v (confs_of w) ->
  Permutation (added w) (map fst (sets (target v))) /\ Permutation (elements [] (target v)) (map fst (sets (target v))).
Proof.
  intros lines doc cmds H Ho E w v Hw Hv. split; [|apply elements_sets].
  assert (Forall even doc) as He.
  { unfold edd_script in E. rewrite H in E. cbn [obind] in E. destruct (commands_spec doc (parsed_shaped _ _ H) Ho) as [[X _]|[_ X]]; [exact X|].
    rewrite X in E. discriminate E. }
  exact (added_sets doc w v (parsed_shaped _ _ H) He Hw Hv).
Qed.
Print Assumptions C78_same_parameters.

Example C78_same_parameters_nonvacuous :
  added ed_place = map lit ["/Sys/on"; "/Sys/amp/gain"; "/Sys/amp/mute"]%string
  /\ sets ed_conf2 = [(lit "/Sys/on", lit "0"); (lit "/Sys/amp/mute", lit "1"); (lit "/Sys/amp/gain", lit "0")]
  /\ In ed_place (domains_of ed_doc) /\ In ed_place1 (confs_of ed_place).
Proof. repeat split; left; reflexivity. Qed.

(** ** Rules *)

(** The rule of a configuration holds when all the rules that concern it do: its own, those of all in which it is, and those of the
    types of its name. *)
Theorem C78_rule : forall cs w, (forall i k, nth_error cs i = Some k -> NoDup (map fst (cty_map (cr_type k)))) ->
  (forall n, concerns n w -> exists r, says cs n r) -> forall old,
  exists r, set_application_rule cs (rule_for w) old = Ok (true, Some r)
    /\ forall state, holds state r <-> (forall n s, concerns n w -> says cs n s -> holds state s).
Proof. exact rule_meaning. Qed.
Print Assumptions C78_rule.

Definition ed_cs : list criterion :=
  [Criterion (lit "Mode") (CritType false [(lit "Call", 1%Z); (lit "Idle", 0%Z)]) 0 0;
   Criterion (lit "Device") (CritType true [(lit "Speaker", 1%Z); (lit "none", 0%Z)]) 0 0].

Lemma ed_rules : rules_for ed_place1 = [ed_mode; Edd KRule (eo "Device" "Includes" "Speaker" false) []].
Proof. reflexivity. Qed.

Lemma ed_says_mode : says ed_cs ed_mode (RCrit 0 VIs 1).
Proof.
  apply (says_crit ed_cs (lit "Mode") 0 (Criterion (lit "Mode") (CritType false [(lit "Call", 1%Z); (lit "Idle", 0%Z)]) 0 0) VIs (lit "Call") 1 [] false).
  - split; [reflexivity|]. split; [reflexivity|]. intros j k' L. inversion L.
  - discriminate.
  - intros c I. cbn in I. cbn. intuition (subst; discriminate).
  - auto.
  - left. reflexivity.
  - intros c I. cbn in I. cbn. intuition (subst; discriminate).
Qed.

Lemma ed_says_device : says ed_cs (Edd KRule (eo "Device" "Includes" "Speaker" false) []) (RCrit 1 VIncludes 1).
Proof.
  apply (says_crit ed_cs (lit "Device") 1 (Criterion (lit "Device") (CritType true [(lit "Speaker", 1%Z); (lit "none", 0%Z)]) 0 0) VIncludes (lit "Speaker") 1 [] false).
  - split; [reflexivity|]. split; [reflexivity|]. intros [|j] k' L E; [|inversion L as [|? L2]; inversion L2]. injection E as <-. discriminate.
  - discriminate.
  - intros c I. cbn in I. cbn. intuition (subst; discriminate).
  - auto.
  - apply cty_numerical_spec; [repeat constructor; cbn; intuition discriminate|]. vm_compute. reflexivity.
  - intros c I. cbn in I. cbn. intuition (subst; discriminate).
Qed.

Example C78_rule_nonvacuous :
  (forall i k, nth_error ed_cs i = Some k -> NoDup (map fst (cty_map (cr_type k))))
  /\ (forall n, concerns n ed_place1 -> exists r, says ed_cs n r)
  /\ set_application_rule ed_cs (rule_for ed_place1) None = Ok (true, Some (RComp true [RCrit 0 VIs 1; RCrit 1 VIncludes 1])).
Proof.
  split.
  { intros [|[|i]] k H; try (destruct i; discriminate H); injection H as <-; repeat constructor; cbn; intuition discriminate. }
  split; [|vm_compute; reflexivity].
  intros n H. apply concerns_In in H. rewrite ed_rules in H. destruct H as [<-|[<-|[]]]; eexists; [exact ed_says_mode|exact ed_says_device].
Qed.

(** ** What is not so *)

(** Finding: the parameters of a sequence-aware domain are not set in the order of the file: those that are directly in a
    configuration come before those of its components (EddParser.py:352-365 and 480-492). *)
Theorem C78_order_of_file_refuted : exists lines doc w v cmds es,
  parse_edd lines = Ok doc /\ In w (domains_of doc) /\ In v (confs_of w) /\ is_aware w = true
  /\ edd_script lines = Ok cmds /\ In (lit "setElementSequence" :: full_domain w :: full_conf v :: es) cmds
  /\ es <> map fst (sets (target v)).
Proof.
  exists ed_lines, ed_doc, ed_place, ed_place1, (script ed_doc), (map lit ["/Sys/on"; "/Sys/amp/gain"; "/Sys/amp/mute"]%string).
  split; [vm_compute; reflexivity|]. split; [left; reflexivity|]. split; [left; reflexivity|]. split; [reflexivity|].
  split; [vm_compute; reflexivity|]. split; [vm_compute; do 7 right; left; reflexivity|]. vm_compute. discriminate.
Qed.
Print Assumptions C78_order_of_file_refuted.

Definition lost_component : list str :=
  [ln 0 "domain: D"; ln 1 "confGroup: G"; ln 2 "component: /Sys/amp"; ln 3 "gain = 10"; ln 2 "conf: A"; ln 3 "/Sys/on = 1"].

(** Finding: a component may be written in a group of configurations (EddParser.py:531 lets it there), but what it sets is silently
    left out: no configuration of the group sets it. *)
Theorem C78_nothing_lost_refuted : exists lines doc w cmds n,
  parse_edd lines = Ok doc /\ edd_script lines = Ok cmds /\ in_file doc w /\ target w = n /\ ed_kind n = KPath
  /\ forall c d f e, In c cmds -> c <> [lit "setConfigurationParameter"; d; f; e; eo_value (ed_opts n)].
Proof.
  exists lost_component.
  pose (p := Edd KPath (eo "gain" "10" "" false) []). pose (q := Edd KGroupPath (eo "/Sys/amp" "" "" false) [p]).
  pose (r := Edd KConf (eo "A" "" "" false) [Edd KPath (eo "/Sys/on" "1" "" false) []]).
  pose (g := Edd KGroupConf (eo "G" "" "" false) [q; r]). pose (d := Edd KDomain (eo "D" "" "" false) [g]).
  exists [d], [([], p); ([], q); ([], g); ([], d)], (script [d]), p.
  split; [vm_compute; reflexivity|]. split; [vm_compute; reflexivity|]. split.
  { eapply in_below with (a := []); [|reflexivity]. eapply in_below with (a := [r]); [|reflexivity]. eapply in_below with (a := []); [|reflexivity].
    eapply in_top with (a := []). reflexivity. }
  split; [reflexivity|]. split; [reflexivity|]. intros c d0 f e I ->. vm_compute in I. intuition discriminate.
Qed.
Print Assumptions C78_nothing_lost_refuted.

Definition lost_conf : list str :=
  [ln 0 "domainGroup: G"; ln 1 "confGroup: Common"; ln 2 "conf: Off"; ln 3 "/Sys/on = 0";
   ln 1 "domain: D"; ln 2 "conf: On"; ln 3 "/Sys/on = 1"].

(** Finding: a configuration written in a group of configurations of a group of domains is in no domain: no command creates it.  Only
    the rules of such a group are used. *)
Theorem C78_every_conf_refuted : exists lines doc v cmds,
  parse_edd lines = Ok doc /\ edd_script lines = Ok cmds /\ in_file doc v /\ ed_kind (target v) = KConf
  /\ forall c d, In c cmds -> c <> [lit "createConfiguration"; d; full_conf v].
Proof.
  exists lost_conf.
  pose (off := Edd KConf (eo "Off" "" "" false) [Edd KPath (eo "/Sys/on" "0" "" false) []]).
  pose (on := Edd KConf (eo "On" "" "" false) [Edd KPath (eo "/Sys/on" "1" "" false) []]).
  pose (g := Edd KGroupConf (eo "Common" "" "" false) [off]). pose (dm := Edd KDomain (eo "D" "" "" false) [on]).
  pose (gd := Edd KGroupDomain (eo "G" "" "" false) [g; dm]).
  exists [gd], [([], off); ([], g); ([], gd)], (script [gd]).
  split; [vm_compute; reflexivity|]. split; [vm_compute; reflexivity|]. split.
  { eapply in_below with (a := []); [|reflexivity]. eapply in_below with (a := [dm]); [|reflexivity]. eapply in_top with (a := []). reflexivity. }
  split; [reflexivity|]. intros c d0 I ->. vm_compute in I. intuition discriminate.
Qed.
Print Assumptions C78_every_conf_refuted.

(** Finding: a rule on a criterion whose name begins with ANY or ALL is taken as an operator, and the generator ends on a KeyError
    (EddParser.py:405 and 412). *)
Theorem C78_no_crash_refuted : exists lines, edd_script lines = Abort
  /\ lines = [ln 0 "domain: D"; ln 1 "conf: A"; ln 2 "ALLOWED Is Yes"; ln 2 "/Sys/on = 1"].
Proof. eexists. split; [|reflexivity]. vm_compute. reflexivity. Qed.
Print Assumptions C78_no_crash_refuted.

Definition late_type : list str :=
  [ln 0 "domain: D"; ln 1 "conf: A"; ln 2 "/Sys/on = 1"; ln 1 "confType: A"; ln 2 "Mode Is Call"].

(** Finding: the README says that any configuration of the domain with the name of a type has its rules.  One that is written before the
    type does not. *)
Theorem C78_type_anywhere_refuted : exists lines doc d w g v r,
  parse_edd lines = Ok doc /\ in_file doc ((d, g) :: w) /\ is_group g = true /\ In r (own_rules g)
  /\ in_file doc (v :: w) /\ ed_kind (snd v) = KConf /\ ed_name (snd v) = ed_name g /\ ~ concerns r (v :: w)
  /\ edd_script lines = Ok (script doc) /\ rule_for (v :: w) = lit "All{  }".
Proof.
  exists late_type. pose (r := Edd KRule (eo "Mode" "Is" "Call" false) []). pose (g := Edd KGroupConf (eo "A" "" "" false) [r]).
  pose (c := Edd KConf (eo "A" "" "" false) [Edd KPath (eo "/Sys/on" "1" "" false) []]). pose (dm := Edd KDomain (eo "D" "" "" false) [c; g]).
  exists [dm], [c], [([], dm)], g, ([], c), r.
  split; [vm_compute; reflexivity|]. split; [eapply in_below with (a := []); [|reflexivity]; eapply in_top with (a := []); reflexivity|].
  split; [reflexivity|]. split; [left; reflexivity|].
  split; [eapply in_below with (a := [g]); [|reflexivity]; eapply in_top with (a := []); reflexivity|].
  split; [reflexivity|]. split; [reflexivity|]. split; [rewrite concerns_In; intros []|]. split; vm_compute; reflexivity.
Qed.
Print Assumptions C78_type_anywhere_refuted.

(** Finding: a parameter that a configuration sets twice is added twice to the domain: the parameter framework refuses the
    second addElement, and the generator ends with an error. *)
Theorem C78_added_once_refuted : exists lines doc w, parse_edd lines = Ok doc /\ In w (domains_of doc)
  /\ edd_script lines = Ok (script doc) /\ ~ NoDup (added w).
Proof.
  exists [ln 0 "domain: D"; ln 1 "conf: A"; ln 2 "/Sys/on = 1"; ln 2 "/Sys/on = 0"].
  pose (dm := Edd KDomain (eo "D" "" "" false) [Edd KConf (eo "A" "" "" false) [Edd KPath (eo "/Sys/on" "1" "" false) []; Edd KPath (eo "/Sys/on" "0" "" false) []]]).
  exists [dm], [([], dm)]. split; [vm_compute; reflexivity|]. split; [left; reflexivity|]. split; [vm_compute; reflexivity|].
  intros H. vm_compute in H. inversion H as [|x l N _]. apply N. left. reflexivity.
Qed.
Print Assumptions C78_added_once_refuted.
