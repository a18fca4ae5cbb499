(** C80: the tool that makes a settings file, from the files to the document. *)
From Coq Require Import List Arith ZArith Bool Ascii String Lia Permutation.
From Verif Require Import Base BaseProofs ParamTypeModel CriterionModel CriterionSpec RuleModel RuleSpec TreeModel TreeSpec SyncModel DomainModel DomainSpec DomainsInv MgrModel MgrSpec MgrProofs LoadModel LoadSpec EditProofs
  XmlModel XmlSpec XmlDemo DomXmlModel DomXmlSpec DomXmlRound DomXmlHist DomXmlProps CatSpec RemoteModel RemoteSpec RemoteProofs CommandModel CommandSpec CommandProps ReportModel ReportSpec ReportProps
  GenModel GenSpec GenProofs GenProps EddModel EddSpec EddProofs EddLineProofs EddMeanProofs EddProps EddRunSpec EddRunProofs EddValueProofs EddExitProofs EddRunProps ToolModel ToolSpec ToolProofs.
Import ListNotations.
Local Open Scope nat_scope.

(** The file of the criteria: one line each, <type> <name> : <values>, is read as said. *)
Theorem C80_criteria : forall criteria cs, Forall2 crit_written criteria cs -> parse_criteria criteria = Some cs.
Proof. exact criteria_read. Qed.
Print Assumptions C80_criteria.

Lemma any_refused : forall criteria l, In l criteria -> parse_criterion l = None -> parse_criteria criteria = None.
Proof.
  intros criteria l. induction criteria as [|a r IH]; intros I E; [destruct I|]. cbn [parse_criteria]. destruct I as [->|I]; [rewrite E; reflexivity|].
  destruct (parse_criterion a); [|reflexivity]. rewrite (IH I E). reflexivity.
Qed.

(** A line without a type, a name and a colon ends the tool with the code 1 and no document, whatever else is given to it. *)
Theorem C80_bad_criterion : forall os ev fl criteria settings files edds l, In l criteria ->
  (~ exists incl g name g' r, l = crit_tag incl ++ g ++ name ++ g' ++ ":"%char :: r /\ gap g /\ solid name /\ gap g') ->
  tool_main os ev fl criteria settings files edds = Ok (1, None).
Proof.
  intros os ev fl criteria settings files edds l I H. unfold tool_main. rewrite (any_refused criteria l I); [reflexivity|]. apply crit_refused. exact H.
Qed.
Print Assumptions C80_bad_criterion.

Lemma uneven_stops : forall doc, Forall (shaped KRoot) doc -> Forall operators_ok doc ->
  (Forall even doc /\ exists d, propagate_all no_ctx doc = Ok d) \/ (~ Forall even doc /\ propagate_all no_ctx doc = Err).
Proof.
  intros doc Hs Ho. rewrite propagate_all_go. change no_ctx with (ctx_of [] []).
  destruct (go_levels [] doc []) as [[E [y [P F]]]|[E P]]; [|left; split; [exact E|exists y; exact P]|right; auto].
  intros b1 n a1 El. cbn [app]. rewrite Forall_forall in Hs, Ho.
  assert (In n doc) as I by (rewrite El; apply in_or_app; right; left; reflexivity).
  apply level_all with KRoot; auto; [constructor|].
  apply Forall_forall. intros m Im. assert (In m doc) as Id by (rewrite El; apply in_or_app; auto). split; eauto.
Qed.

Lemma after_good : forall edds docs r, Forall2 (fun f doc => parse_edd f = Ok doc /\ Forall operators_ok doc /\ Forall even doc) edds docs ->
  forall k, parse_edds r = Ok (inl k) -> parse_edds (edds ++ r) = Ok (inl k).
Proof.
  intros edds docs r F k Hk. induction F as [|f doc edds docs [Hp [Ho He]] F IH]; [exact Hk|]. cbn [app parse_edds]. rewrite Hp.
  destruct (uneven_stops doc (parsed_shaped _ _ Hp) Ho) as [[_ [d ->]]|[N _]]; [|contradiction]. rewrite IH. reflexivity.
Qed.

(** The first EDD file that is wrong ends the tool without a document: with the code 2 if it can not be read, with the code 1 if
    some configuration of a domain does not set the same parameters as the others. *)
Theorem C80_bad_edd : forall os ev fl criteria cs settings files edds docs f r, Forall2 crit_written criteria cs ->
  Forall2 (fun f doc => parse_edd f = Ok doc /\ Forall operators_ok doc /\ Forall even doc) edds docs ->
  (parse_edd f = Err -> tool_main os ev fl criteria settings files (edds ++ f :: r) = Ok (2, None))
  /\ forall doc, parse_edd f = Ok doc -> Forall operators_ok doc -> ~ Forall even doc -> tool_main os ev fl criteria settings files (edds ++ f :: r) = Ok (1, None).
Proof.
  intros os ev fl criteria cs settings files edds docs f r Cw F. unfold tool_main. rewrite (criteria_read _ _ Cw). split.
  - intros Hp. rewrite (after_good edds docs (f :: r) F 2); [reflexivity|]. cbn [parse_edds]. rewrite Hp. reflexivity.
  - intros doc Hp Ho Ne. rewrite (after_good edds docs (f :: r) F 1); [reflexivity|]. cbn [parse_edds]. rewrite Hp.
    destruct (uneven_stops doc (parsed_shaped _ _ Hp) Ho) as [[E _]|[_ ->]]; [contradiction|reflexivity].
Qed.
Print Assumptions C80_bad_edd.

(** The whole: if the tool ends with the code 0, its document is that of a framework that has started with the criteria of the file,
    has imported the settings file and the domain files with success, and has, after the domains it then had, those of the EDD files, in the
    order of the files, as said, with the values as said, and where no element is in two domains. *)
Theorem C80_tool : forall os ev fl y given criteria cs settings files edds docs x, files_ok y given fl -> names_ok (sy_root y) -> (forall l, Permutation (os_order os l) l) ->
  Forall2 crit_written criteria cs -> Forall crit_ok cs -> (forall f, settings = Some f -> enterable f) -> Forall enterable files -> Forall2 file_good edds docs ->
  tool_main os ev fl criteria settings files edds = Ok (0, Some x) ->
  exists ks s m0, generator_start y given fl cs ks s m0
    /\ (files = [] -> exists bs m1, all_do os y (ev_need ev) m0 (import_requests settings files) bs m1)
    /\ forall bs m1, all_do os y (ev_need ev) m0 (import_requests settings files) bs m1 ->
       failures bs = 0 /\ exists m ds, export_domains y true m = Ok x /\ see m = see m1 ++ ds /\ Forall2 (domain_as_said (sy_root y) (mg_crits m1)) (flat_map domains_of docs) ds
       /\ (forall w v t z, In w (flat_map domains_of docs) -> In v (confs_of w) -> In (t, z) (sets (target v)) ->
             exists q e, names_parameter (sy_root y) t q /\ param_at (sy_root y) q e
               /\ (whole (e_kind e) z -> exists bb, access_set (sy_root y) (mg_fmt m1) t z 0 (mg_main m1) = Ok (true, bb)
                     /\ get_recorded y (full_domain w) (full_conf v) t m = access_get (sy_root y) (mg_fmt m1) t 0 bb))
       /\ forall q, ~ shared m q.
Proof. exact tool_whole. Qed.
Print Assumptions C80_tool.

(** ** An example *)

Definition tx_criteria : list str := [lit "ExclusiveCriterion  Mode : Other Call  Normal"; lit "InclusiveCriterion Devices:Ear HS"].

Ltac no_blank := let c := fresh "c" in let H := fresh "H" in intros c H; cbn in H; repeat (destruct H as [<-|H]; [vm_compute; reflexivity|]); destruct H.
Ltac solids := split; [discriminate|no_blank].

Lemma tx_written : Forall2 crit_written tx_criteria gx_crits.
Proof.
  repeat constructor.
  - change (lit "ExclusiveCriterion  Mode : Other Call  Normal") with (crit_tag false ++ lit "  " ++ lit "Mode" ++ lit " " ++ ":"%char :: lit " " ++ lit "Other" ++ lit " " ++ lit "Call" ++ lit "  " ++ lit "Normal").
    apply cw_line; [no_blank|solids|no_blank|no_blank| |left; discriminate].
    apply sp_more; [solids|no_blank|discriminate|]. apply sp_more; [solids|no_blank|discriminate|]. apply sp_one. solids.
  - change (lit "InclusiveCriterion Devices:Ear HS") with (crit_tag true ++ lit " " ++ lit "Devices" ++ [] ++ ":"%char :: [] ++ lit "Ear" ++ lit " " ++ lit "HS").
    apply cw_line; [no_blank|solids|no_blank|no_blank| |right].
    + apply sp_more; [solids|no_blank|discriminate|]. apply sp_one. solids.
    + intros v [<-|[<-|[]]]; vm_compute; intuition discriminate.
Qed.

(** A settings file to import, made by the same tool from a first EDD file. *)
Definition tx_first : list str := [ln 0 "domain: Base"; ln 1 "conf: On"; ln 2 "Mode IsNot Other"; ln 2 "/Sys/Sub/mix/en = on"].
Definition tx_base : xnode := match tool_main plain silent gx_files tx_criteria None [] [tx_first] with Ok (_, Some x) => x | _ => XText [] end.
Definition tx_os : outside := Outside (fun l => l) (Details (fun _ => []) (fun _ => []) (fun _ => [])) (fun file name => if file && str_eqb name (lit "base.xml") then Some tx_base else None) (fun _ => []).

Definition tx_edds : list (list str) := [firstn 14 rx_lines; skipn 14 rx_lines].
Definition tx_docs : list (list edd) := [match parse_edd (firstn 14 rx_lines) with Ok d => d | _ => [] end; match parse_edd (skipn 14 rx_lines) with Ok d => d | _ => [] end].

Definition tidy_word (s : str) : bool := str_eqb (trim s) s && forallb (fun c => negb (char_eqb c zero) && negb (char_eqb c newline)) s.
Lemma tidy_words : forall cmds, forallb (forallb tidy_word) cmds = true -> Forall (Forall (fun w => tidy w /\ enterable w)) cmds.
Proof.
  intros cmds E. rewrite forallb_forall in E. apply Forall_forall. intros c Ic. apply E in Ic. cbv beta in Ic. rewrite forallb_forall in Ic. apply Forall_forall. intros s Is. apply Ic in Is.
  unfold tidy_word in Is. apply andb_prop in Is. destruct Is as [A B]. apply str_eqb_eq in A. split; [apply trim_tidy; exact A|]. rewrite forallb_forall in B. split; intros H; apply B in H; discriminate H.
Qed.

Lemma tx_good : Forall2 file_good tx_edds tx_docs.
Proof.
  unfold tx_edds, tx_docs. constructor; [|constructor; [|constructor]]; (split; [vm_compute; reflexivity|]; split; [|apply tidy_words; vm_compute; reflexivity]).
  all: vm_compute; repeat match goal with
  | |- Forall _ [] => apply Forall_nil
  | |- Forall _ (_ :: _) => apply Forall_cons
  | |- operators_ok _ => apply operators_intro; [first [intros H; discriminate H|intros _; left; reflexivity]|]
  end.
Qed.

Example C80_tool_nonvacuous : files_ok xd (fun _ => None) gx_files /\ names_ok (sy_root xd) /\ (forall l, Permutation (os_order tx_os l) l) /\ Forall2 crit_written tx_criteria gx_crits /\ Forall crit_ok gx_crits
  /\ enterable (lit "base.xml") /\ Forall2 file_good tx_edds tx_docs
  /\ (exists x, tool_main tx_os silent gx_files tx_criteria (Some (lit "base.xml")) [] tx_edds = Ok (0, Some x))
  /\ map full_domain (flat_map domains_of tx_docs) = [lit "Audio.Volume"; lit "Balance"].
Proof.
  split; [exact gx_files_ok|]. split; [exact xd_names|]. split; [intros l; apply Permutation_refl|]. split; [exact tx_written|]. split; [exact gx_crits_ok|].
  split; [vm_compute; intuition discriminate|]. split; [exact tx_good|]. split; [eexists; vm_compute; reflexivity|vm_compute; reflexivity].
Qed.

(** The domains of the document, those of the settings file first; and the code when the files are wrong. *)
Example C80_codes_nonvacuous :
  (exists x, tool_main tx_os silent gx_files tx_criteria (Some (lit "base.xml")) [] tx_edds = Ok (0, Some x)
     /\ map (fun n => match n with XElem _ (a :: _) _ => snd a | _ => [] end) (match x with XElem _ _ l => l | _ => [] end) = [lit "Base"; lit "Audio.Volume"; lit "Balance"])
  /\ tool_main tx_os silent gx_files tx_criteria None [] (tx_edds ++ [[ln 0 "domain D"]]) = Ok (2, None)
  /\ tool_main tx_os silent gx_files tx_criteria None [] (tx_edds ++ [[ln 0 "domain: D"; ln 1 "conf: A"; ln 2 "/Sys/Sub/neg = none"; ln 1 "conf: B"]]) = Ok (1, None)
  /\ (exists x, tool_main tx_os silent gx_files tx_criteria (Some (lit "missing.xml")) [] tx_edds = Ok (1, Some x)).
Proof. split; [eexists; split; vm_compute; reflexivity|]. split; [vm_compute; reflexivity|]. split; [vm_compute; reflexivity|]. eexists. vm_compute. reflexivity. Qed.

(** ** What is not so *)

(** An empty line in the file of the criteria is not skipped: the tool ends with the code 1. *)
Theorem C80_empty_line_refuted : exists l, l = [] /\ forall os ev fl criteria criteria' settings files edds, tool_main os ev fl (criteria ++ l :: criteria') settings files edds = Ok (1, None).
Proof.
  exists []. split; [reflexivity|]. intros os ev fl criteria criteria' settings files edds. unfold tool_main. rewrite (any_refused (criteria ++ [] :: criteria') []); [reflexivity| |reflexivity].
  apply in_or_app. right. left. reflexivity.
Qed.
Print Assumptions C80_empty_line_refuted.

(** A blank at the end of a line of the criteria, that can not be seen, adds a value without a name to the criterion. *)
Theorem C80_trailing_blank_refuted : exists l c l', crit_written l c /\ l' = l ++ lit " " /\ parse_criterion l' = Some (GCrit (gc_incl c) (gc_name c) (gc_values c ++ [[]])).
Proof.
  exists (lit "ExclusiveCriterion  Mode : Other Call  Normal"), (GCrit false (lit "Mode") [lit "Other"; lit "Call"; lit "Normal"]). eexists.
  split; [pose proof tx_written as W; inversion W; assumption|]. split; [reflexivity|]. vm_compute. reflexivity.
Qed.
Print Assumptions C80_trailing_blank_refuted.

(** So for every such line, and for every such criterion with values: the blanks at the end of the line, or nothing at all after the
    colon, are one value more, without a name. *)
Lemma fields_ends : forall ws s g, spaced ws s -> gap g -> g <> [] -> blank_fields [] (s ++ g) = ws ++ [[]].
Proof.
  assert (E : forall g cur, gap g -> g <> [] -> blank_fields cur g = [rev cur; []]).
  { induction g as [|b g IH]; intros cur G N; [congruence|]. cbn [blank_fields]. rewrite (G b (or_introl eq_refl)). destruct g as [|b' g]; [reflexivity|].
    rewrite (G b' (or_intror (or_introl eq_refl))). apply IH; [intros x I; apply G; right; exact I|discriminate]. }
  intros ws s g H G N. induction H as [w [Nw S]|w h ws s [Nw S] Gh Nh H IH].
  - rewrite fields_word by exact S. rewrite E by auto. rewrite app_nil_r, rev_involutive. reflexivity.
  - rewrite <- !app_assoc, fields_word by exact S. destruct (spaced_head _ _ H) as [c [r [Q Hc]]]. rewrite Q in *. cbn [app] in *. rewrite fields_gap by auto. rewrite IH, app_nil_r, rev_involutive. reflexivity.
Qed.

Theorem C80_trailing_blanks : forall incl g1 name g2 g3 values s g, gap g1 -> solid name -> gap g2 -> g2 <> [] -> gap g3 -> gap g ->
  (spaced values s /\ g <> []) \/ (values = [] /\ s = []) ->
  parse_criterion (crit_tag incl ++ g1 ++ name ++ g2 ++ ":"%char :: g3 ++ s ++ g) = Some (GCrit incl name (values ++ [[]])).
Proof.
  intros incl g1 name g2 g3 values s g G1 N G2 N2 G3 G H. rewrite parse_tag. unfold crit_after. rewrite lstrip_to by exact G1. rewrite lstrip_solid by exact N.
  rewrite py_word_to; [|apply N|destruct g2 as [|b g2]; [congruence|apply G2; left; reflexivity]]. destruct name as [|n0 name]; [destruct N; congruence|].
  rewrite lstrip_to by exact G2. cbn [lstrip]. rewrite colon_solid, char_eqb_refl, lstrip_to by exact G3. f_equal. f_equal. destruct H as [[Sp Ng]|[-> ->]].
  - destruct (spaced_head _ _ Sp) as [c [r [Q Hc]]]. rewrite Q. cbn [app lstrip]. rewrite Hc. change (c :: r ++ g) with ((c :: r) ++ g). rewrite <- Q. apply fields_ends; auto.
  - cbn [app]. rewrite <- (app_nil_r g), lstrip_to by exact G. reflexivity.
Qed.
Print Assumptions C80_trailing_blanks.

(** A criterion without values has one, without a name. *)
Theorem C80_no_values_refuted : exists l, l = lit "InclusiveCriterion Devices :" /\ parse_criterion l = Some (GCrit true (lit "Devices") [[]]).
Proof. eexists. split; [reflexivity|]. vm_compute. reflexivity. Qed.
Print Assumptions C80_no_values_refuted.

(** Without a blank before the colon, the name takes all it can: a colon in a value changes the name of the criterion. *)
Theorem C80_first_colon_refuted : exists l, l = lit "ExclusiveCriterion Mode:in:call out" /\ parse_criterion l = Some (GCrit false (lit "Mode:in") [lit "call"; lit "out"]).
Proof. eexists. split; [reflexivity|]. vm_compute. reflexivity. Qed.
Print Assumptions C80_first_colon_refuted.

(** The type and the name may be one word. *)
Theorem C80_one_word_refuted : exists l, l = lit "ExclusiveCriterionMode : a" /\ parse_criterion l = Some (GCrit false (lit "Mode") [lit "a"]).
Proof. eexists. split; [reflexivity|]. vm_compute. reflexivity. Qed.
Print Assumptions C80_one_word_refuted.

(** ** The characters of an EDD file *)

(** The words of an EDD line are made of letters, digits, underscores and dots; the blanks are those of Python. *)
Theorem C78_characters : forall c, (word_char c = true <-> In c (lit "abcdefghijklmnopqrstuvwxyzABCDEFGHIJKLMNOPQRSTUVWXYZ0123456789_."))
  /\ (py_blank c = true <-> In c (map ascii_of_nat [9; 10; 11; 12; 13; 32])).
Proof.
  assert (E : forall c, word_char c = in_chars (lit "abcdefghijklmnopqrstuvwxyzABCDEFGHIJKLMNOPQRSTUVWXYZ0123456789_.") c /\ py_blank c = in_chars (map ascii_of_nat [9; 10; 11; 12; 13; 32]) c)
    by (intros [b0 b1 b2 b3 b4 b5 b6 b7]; destruct b0, b1, b2, b3, b4, b5, b6, b7; split; vm_compute; reflexivity).
  assert (I : forall l c, in_chars l c = true <-> In c l).
  { intros l c. unfold in_chars. rewrite existsb_exists. split; [intros [x [J K]]; apply char_eqb_eq in K; subst; exact J|intros J; exists c; split; [exact J|apply char_eqb_eq; reflexivity]]. }
  intros c. destruct (E c) as [-> ->]. split; apply I.
Qed.
Print Assumptions C78_characters.
