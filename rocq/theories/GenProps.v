(** Properties of the domain generator. *)
From Coq Require Import List Arith ZArith Bool Ascii String Lia Permutation.
From Verif Require Import Base BaseProofs TextModel ParamTypeModel CriterionModel CriterionSpec TreeModel TreeSpec BlackboardModel BlackboardProofs SyncModel DomainModel DomainSpec DomainsInv MgrModel MgrSpec MgrProofs MgrSkel LoadModel LoadSpec LoadProofs LoadProps RuleModel DomainApply ApplySpec ApplyProofs
  Demo XmlDemo XmlModel XmlSpec DomXmlModel DomXmlSpec DomXmlInv DomXmlRound DomXmlHist DomXmlProps
  RemoteModel RemoteSpec RemoteProofs CommandModel CommandSpec CommandProps ReportModel ReportSpec ReportProps CapiModel CapiSpec CapiProofs PlatModel PlatProofs GenModel GenSpec GenProofs.
Import ListNotations.
Local Open Scope nat_scope.

(** The generator given criteria, the start and commands: the criteria are the described ones, the framework starts on the domains of
    the settings file in the tuning mode, and whatever the commands do from there, the document is the export of the domains that
    they leave, and the exit code counts the failed commands and the conflict. *)
Theorem C73_generates : forall os ev fl y given cs rs, files_ok y given fl -> Forall crit_ok cs -> Forall command_ok rs -> (forall l, Permutation (os_order os l) l) ->
  exists ks s m0, generator_start y given fl cs ks s m0 /\ history y m0 /\ mg_tuning m0 = true
    /\ forall bs m x, all_do os y (ev_need ev) m0 rs bs m -> export_domains y true m = Ok x ->
         exists code, g_main os ev fl (script cs rs) = Ok (code, Some x) /\ exit_code m bs code.
Proof.
  intros os ev fl y given cs rs Fo F Fr P. destruct (criteria_started os ev fl y given cs (flat_map command_line rs) Fo F) as [ks [s [m0 [G [H [T E]]]]]].
  exists ks, s, m0. split; [exact G|]. split; [exact H|]. split; [exact T|]. intros bs m x A Ex.
  rewrite (commands_made os ev fl y rs m0 bs m 0 A Fr) in E. cbn [Nat.add] in E.
  destruct (main_ends os ev fl y m (failures bs) (script cs rs) x (all_do_history _ _ _ _ _ _ _ A H) (proj1 (proj2 Fo)) P E Ex) as [code [Em Ec]].
  exists code. split; [exact Em|exact Ec].
Qed.
Print Assumptions C73_generates.

(** The document as the settings file of another start, with criteria of the same names and types: it is accepted, and gives the
    domains that the commands made, with their rules and recorded settings.  [distinguishable], [exportable]: see DomXmlSpec. *)
Theorem C73_settings : forall os ev fl y given cs rs, files_ok y given fl -> names_ok (sy_root y) -> Forall crit_ok cs -> Forall command_ok rs -> (forall l, Permutation (os_order os l) l) ->
  exists ks s m0, generator_start y given fl cs ks s m0
    /\ forall bs m, all_do os y (ev_need ev) m0 rs bs m -> distinguishable (mg_crits m) ->
         (forall d, In d (ds_list (mg_doms m)) -> exportable y (mg_crits m) (mg_fmt m) d) ->
         exists x code, g_main os ev fl (script cs rs) = Ok (code, Some x) /\ exit_code m bs code
           /\ forall x' allowed cs2 bb, like x x' -> same_criteria (mg_crits m) cs2 -> crits_ok cs2 -> List.length bb = footprint (sy_root y) ->
                exists s2 m2, import_all y cs2 true x' (Domains [] [] 0) = Ok (true, s2) /\ load y allowed cs2 s2 bb = Ok m2 /\ history y m2
                  /\ same_domains y (mg_doms m) (mg_doms m2).
Proof.
  intros os ev fl y given cs rs Fo Nm F Fr P. destruct (C73_generates os ev fl y given cs rs Fo F Fr P) as [ks [s [m0 [G [H [T E]]]]]].
  exists ks, s, m0. split; [exact G|]. intros bs m A D Ex. pose proof (proj1 (proj2 Fo)) as Sy. pose proof (all_do_history _ _ _ _ _ _ _ A H) as Hm.
  destruct (history_sound y m Sy Hm) as [[K [V L]] [R C]].
  assert (exists x, export_domains y true m = Ok x) as [x Ee].
  { destruct (import_all_back y (mg_crits m) (mg_fmt m) true (mg_doms m) (proj1 Sy) (proj2 Sy) Nm D K) as [x [Ee _]]; [intros d Hd; apply exportable_any; auto|]. exists x. exact Ee. }
  destruct (E bs m x A Ee) as [code [Em Ec]]. exists x, code. split; [exact Em|]. split; [exact Ec|]. intros x' al cs2 bb Lk Sc C2 Lb.
  destruct (import_all_back y cs2 (mg_fmt m) true (mg_doms m) (proj1 Sy) (proj2 Sy) Nm (distinguishable_same _ _ Sc D) K) as [x2 [Ee2 B]].
  { intros d Hd. apply (exportable_same y (mg_crits m)); auto. apply exportable_any. auto. }
  assert (x2 = x) as ->. { unfold export_domains in Ee. rewrite (domains_to_same y _ _ _ _ _ Sc) in Ee. congruence. }
  destruct (B x' true (Domains [] [] 0) Lk (no_domains_ok y)) as [s2 [Ei [Fi Br]]]. cbn [andb] in Br.
  destruct (file_loadable y cs2 (Some x') s2 bb Sy C2 Lb (ex_intro _ true Ei)) as [Lo2 R2]. destruct (load_ok y al cs2 s2 bb Sy Lo2) as [m2 [s3 [E1 [Ev [Ea [M0 _]]]]]].
  exists s2, m2. split; [exact Ei|]. split; [exact E1|]. split; [exact (hi_start y al cs2 (Some x') s2 bb m2 C2 Lb (ex_intro _ true Ei) E1)|].
  pose proof (kept_full y bb _ _ (validated_brought y bb true _ s2 s3 (proj1 Sy) (proj1 Fi) Lb Br Ev)) as Q.
  destruct (do_apply_inv y true [] _ m2 (proj1 Sy) M0 Ea) as [Ed _]. unfold same_domains. rewrite Ed. cbn [ds_list mg_crits mg_doms].
  clear -Q. induction Q as [|d d' l l' H Q IH]; cbn [map]; constructor; [|exact IH].
  destruct H as [H1 [H2 [H3 H4]]]. unfold applied. destruct (dm_applicable cs2 d'); (split; [exact H1|split; [exact H2|split; [exact H3|exact H4]]]).
Qed.
Print Assumptions C73_settings.

(** Empty lines do not count, nor does the end of the last line. *)
Theorem C73_blank_lines : forall os ev fl a b,
  g_main os ev fl (a ++ [newline] ++ [newline] ++ b) = g_main os ev fl (a ++ [newline] ++ b)
  /\ g_main os ev fl (a ++ [newline]) = g_main os ev fl a /\ g_main os ev fl ([newline] ++ a) = g_main os ev fl a.
Proof.
  intros os ev fl a b. unfold g_main. cbn [app]. rewrite !lines_cat. cbn [input_lines]. change (char_eqb newline (ascii_of_nat 10)) with true. cbv iota.
  split; [|split; [|reflexivity]].
  - rewrite !g_lines_app. cbn [g_lines obind]. destruct (g_lines os ev fl (input_lines [] a) g_new) as [[g|]| | |]; reflexivity.
  - rewrite g_lines_app. destruct (g_lines os ev fl (input_lines [] a) g_new) as [[g|]| | |]; reflexivity.
Qed.
Print Assumptions C73_blank_lines.

(** A criterion with too few words, or that cannot be made: the generator ends there with 1 and writes nothing, whatever follows. *)
Theorem C73_bad_criterion : forall os ev fl cs args rest, Forall crit_ok cs -> Forall enterable args ->
  List.length args < 3 \/ (exists (incl : bool) kind n vs, args = kind :: n :: vs /\ (kind = lit "inclusive" <-> incl = true)
                             /\ (if incl then List.length vs <= 31 else (Z.of_nat (List.length vs) <= 2 ^ 31 - 1)%Z) /\ ~ makeable (CCrit (Some n) incl (Some vs))) ->
  g_main os ev fl (flat_map crit_line cs ++ input_line (lit "createSelectionCriterion") args ++ rest) = Ok (1, None).
Proof.
  intros os ev fl cs args rest F Fa B. destruct (crit_lines_made os ev fl cs g_new (input_line (lit "createSelectionCriterion") args ++ rest) F) as [ks [E _]].
  unfold g_main. rewrite E, line_split; [|apply create_enter|exact Fa]. cbn [g_lines]. unfold g_line. rewrite words_split; [|discriminate|apply create_enter|exact Fa].
  rewrite str_eqb_refl.
  assert (g_criterion args (add_crits g_new ks) = Ok None) as ->; [|reflexivity].
  destruct B as [B|[incl [kind [n [vs [-> [Ek [L Nm]]]]]]]].
  - destruct args as [|a1 [|a2 [|a3 args]]]; try reflexivity. cbn in B. lia.
  - destruct vs as [|v vs]; [reflexivity|]. unfold g_criterion.
    assert (str_eqb kind (lit "inclusive") = incl) as ->.
    { destruct (str_eqb kind (lit "inclusive")) eqn:Q; [apply str_eqb_eq in Q; apply Ek in Q; auto|]. destruct incl; auto. rewrite (proj2 Ek eq_refl) in Q. rewrite str_eqb_refl in Q. discriminate. }
    cbv zeta. assert (Z.of_nat (List.length (v :: vs)) <= 2 ^ 31 - 1)%Z as L' by (destruct incl; lia).
    pose proof (described_new (CCrit (Some n) incl (Some (v :: vs))) n (v :: vs) eq_refl eq_refl L') as D. cbn [cc_incl] in D.
    pose proof (add_states_values incl (v :: vs) 0 (cty_new incl) ltac:(lia) ltac:(intros ->; lia)) as A.
    destruct (add_states incl 0 (v :: vs) (cty_new incl)) as [[t|e]| | |]; try (rewrite A in D; try contradiction); try contradiction; cbn [obind]; [|reflexivity].
    destruct D as [_ [_ D]]. contradiction.
Qed.
Print Assumptions C73_bad_criterion.

(** The start: no structure, or tuning prohibited, and the generator ends there with 1 and writes nothing. *)
Theorem C73_start_refused : forall os ev fl cs rest, Forall crit_ok cs ->
  gf_structure fl = None
  \/ (exists y given, gf_structure fl = Some (y, given, false) /\ system_ok y /\ answers_ok y given /\ forall x, gf_settings fl = Some x -> domains_shaped x) ->
  g_main os ev fl (flat_map crit_line cs ++ input_line (lit "start") [] ++ rest) = Ok (1, None).
Proof.
  intros os ev fl cs rest F B. destruct (crit_lines_made os ev fl cs g_new (input_line (lit "start") [] ++ rest) F) as [ks [E [_ [_ C]]]].
  unfold g_main. rewrite E, line_split; [|apply start_enter|constructor]. cbn [g_lines]. unfold g_line. rewrite words_split; [|discriminate|apply start_enter|constructor].
  change (str_eqb (lit "start") (lit "createSelectionCriterion")) with false. change (str_eqb (lit "start") (lit "start")) with true. cbv iota.
  assert (g_start fl (add_crits g_new ks) = Ok None) as ->; [|reflexivity].
  unfold g_start. cbn [gn_loaded add_crits g_new]. change (mg_crits (gn_mgr (add_crits g_new ks))) with ks.
  destruct B as [->|[y [given [-> [Sy [Ao Sx]]]]]]; [reflexivity|].
  destruct (settings_ok y ks (gf_settings fl) Sy C Sx) as [s [Eg Es]]. rewrite Eg. cbn [obind].
  assert (List.length (initial_blackboard (sy_root y)) = footprint (sy_root y)) as L0 by (unfold initial_blackboard; apply bb_set_size_length).
  destruct (file_loadable y ks (gf_settings fl) s _ Sy C L0 Es) as [Lo R].
  destruct (start_up_inv y given false ks s Sy Ao Lo) as [bb [m [_ [Lo2 [El Eu]]]]]. rewrite Eu. cbn [obind].
  destruct (load_flags y false ks s bb m El) as [Tm Am]. unfold set_tuning. rewrite Tm, Am. reflexivity.
Qed.
Print Assumptions C73_start_refused.

(** Whatever the input: a code that a process can end with, and nothing written means 1. *)
Theorem C73_code : forall os ev fl input code out, g_main os ev fl input = Ok (code, out) -> code <= 255 /\ (out = None -> code = 1).
Proof.
  intros os ev fl input code out H. unfold g_main in H. destruct (g_lines os ev fl (input_lines [] input) g_new) as [[g|]| | |]; try discriminate; cbn [obind] in H; [|inversion H; subst; split; [lia|auto]].
  destruct (g_conflicts os ev g) as [[b|]| | |]; try discriminate; cbn [obind] in H; [|inversion H; subst; split; [lia|auto]].
  destruct (export_domains (gn_sys g) true (gn_mgr g)); try discriminate; inversion H; subst; (split; [lia|]); [discriminate|auto].
Qed.
Print Assumptions C73_code.

(** ** Examples *)

Definition gx_files : gfiles := GFiles (Some (xd, (fun _ => None), true)) None.
Definition gx_crits : list gcrit :=
  [GCrit false (lit "Mode") [lit "Other"; lit "Call"; lit "Normal"]; GCrit true (lit "Devices") [lit "Ear"; lit "HS"]].
Definition gx_commands : list (string * list str) :=
  [("setParameter", [lit "/Sys/Sub/str"; lit " abc "]); ("createDomain", [lit "D"]); ("addElement", [lit "D"; lit "/Sys/Sub/str"]);
   ("createConfiguration", [lit "D"; lit "Call"]); ("setRule", [lit "D"; lit "Call"; lit "All{Mode Is Call,Any{Devices Includes HS}}"]);
   ("deleteDomain", [lit "X"])]%string.
Definition gx_after (rs : list (string * list str)) : mgr :=
  match g_lines plain silent gx_files (input_lines [] (script gx_crits rs)) g_new with Ok (Some g) => gn_mgr g | _ => gn_mgr g_new end.
Definition gx_m0 : mgr := gx_after [].
Definition gx_end : mgr := gx_after gx_commands.

Lemma gx_files_ok : files_ok xd (fun _ => None) gx_files.
Proof. split; [reflexivity|]. split; [exact xd_ok|]. split; [intros o e x bytes _ _ H; discriminate|intros x H; discriminate]. Qed.
Lemma gx_crits_ok : Forall crit_ok gx_crits.
Proof.
  repeat apply Forall_cons; [..|apply Forall_nil].
  - split; [eexists; eexists; split; [reflexivity|split; [reflexivity|split; [|discriminate]]]; repeat constructor; cbn; intuition discriminate|].
    split; [discriminate|]. split; [vm_compute; discriminate|]. repeat constructor; cbn; intuition discriminate.
  - split; [eexists; eexists; split; [reflexivity|split; [reflexivity|split; [|intros _; split; [cbn; lia|cbn; intuition discriminate]]]]; repeat constructor; cbn; intuition discriminate|].
    split; [discriminate|]. split; [vm_compute; discriminate|]. repeat constructor; cbn; intuition discriminate.
Qed.
Lemma gx_commands_ok : Forall command_ok gx_commands.
Proof. repeat apply Forall_cons; [..|apply Forall_nil]; (split; [discriminate|split; [split; cbn; intuition discriminate|repeat constructor; cbn; intuition discriminate]]). Qed.
Lemma trimmed_self : forall args, Forall (fun s => trim s = s) args -> Forall2 trimmed args args.
Proof. intros args F. induction F as [|s args E F IH]; constructor; auto. pose proof (trim_spec s) as T. rewrite E in T. exact T. Qed.

Lemma gx_done : all_do plain xd [] gx_m0 gx_commands [true; true; true; true; true; false] gx_end.
Proof.
  unfold gx_commands.
  eapply ad_cons; [apply Forall2_cons; [|apply Forall2_cons; [|apply Forall2_nil]]; [apply trim_spec|apply trim_spec]|eapply do_command; [apply m_set; apply words_one|vm_compute; reflexivity]|].
  eapply ad_cons; [apply trimmed_self; repeat constructor|eapply do_command; [apply m_create|vm_compute; reflexivity]|].
  eapply ad_cons; [apply trimmed_self; repeat constructor|eapply do_command; [apply m_add|vm_compute; reflexivity]|].
  eapply ad_cons; [apply trimmed_self; repeat constructor|eapply do_command; [apply m_create_config|vm_compute; reflexivity]|].
  eapply ad_cons; [apply trimmed_self; repeat constructor|eapply do_command; [apply m_rule; apply words_one|vm_compute; reflexivity]|].
  eapply ad_cons; [apply trimmed_self; repeat constructor|eapply do_command; [apply m_delete|vm_compute; reflexivity]|].
  match goal with |- all_do _ _ _ ?m [] [] ?m' => assert (m = m') as -> by (vm_compute; reflexivity) end. apply ad_nil.
Qed.

Lemma gx_shape : map (fun d => (dm_name d, map (fun c => (cf_name c, cf_rule c, cf_areas c)) (dm_configs d))) (ds_list (mg_doms gx_end))
  = [(lit "D", [(lit "Call", Some (RComp true [RCrit 0 VIs 1; RComp false [RCrit 1 VIncludes 2]]), [dx_str])])].
Proof. vm_compute. reflexivity. Qed.

Lemma gx_exportable : forall d, In d (ds_list (mg_doms gx_end)) -> exportable xd (mg_crits gx_end) (mg_fmt gx_end) d.
Proof.
  intros d Hd. pose proof dx_areas as F. inversion F as [|? ? A1 F1]; subst. inversion F1 as [|? ? A2 F2]; subst. inversion F2 as [|? ? A3 F3]; subst.
  clear F F1 F2 F3 A1 A2. pose proof (in_map (fun d => (dm_name d, map (fun c => (cf_name c, cf_rule c, cf_areas c)) (dm_configs d))) _ _ Hd) as Hm. rewrite gx_shape in Hm. clear Hd.
  assert (mg_fmt gx_end = Fmt false false) as -> by (vm_compute; reflexivity).
  assert (nth_error (mg_crits gx_end) 0 = Some (Criterion (lit "Mode") (CritType false [(lit "Call", 1%Z); (lit "Normal", 2%Z); (lit "Other", 0%Z)]) 0 0)) as K0 by (vm_compute; reflexivity).
  assert (nth_error (mg_crits gx_end) 1 = Some (Criterion (lit "Devices") (CritType true [(lit "Ear", 1%Z); (lit "HS", 2%Z); (lit "none", 0%Z)]) 0 0)) as K1 by (vm_compute; reflexivity).
  destruct Hm as [Hm|[]]. inversion Hm as [[En El]]. clear Hm. destruct (dm_configs d) as [|c [|c' l]] eqn:Ed; cbn [map] in El; [discriminate El| |discriminate El]. inversion El as [[Q1 Q2 Q3]]. split.
  - unfold config_named. rewrite Ed. cbn [map]. rewrite <- Q1. split; [repeat constructor; cbn; intuition discriminate|cbn; intuition discriminate].
  - intros c0 Hc. rewrite Ed in Hc. destruct Hc as [<-|[]]. split; [|rewrite <- Q3; repeat constructor; auto].
    intros r Hr. rewrite <- Q2 in Hr. inversion Hr; subst. split; [|eauto]. constructor. repeat apply Forall_cons; [..|apply Forall_nil].
    + apply (wr_crit _ 0 _ VIs 1 (lit "Call") K0); [auto|simpl; auto].
    + constructor. apply Forall_cons; [|apply Forall_nil]. apply (wr_crit _ 1 _ VIncludes 2 (lit "HS") K1); [auto|simpl; auto].
Qed.

Lemma gx_distinguishable : distinguishable (mg_crits gx_end).
Proof.
  assert (mg_crits gx_end = [Criterion (lit "Mode") (CritType false [(lit "Call", 1%Z); (lit "Normal", 2%Z); (lit "Other", 0%Z)]) 0 0;
    Criterion (lit "Devices") (CritType true [(lit "Ear", 1%Z); (lit "HS", 2%Z); (lit "none", 0%Z)]) 0 0]) as -> by (vm_compute; reflexivity).
  intros [|[|i]] k H; [| |destruct i; discriminate]; inversion H; subst; (split; [discriminate|split; [|split]]).
  - intros [|[|j]] k' Hj En; [auto| |destruct j; discriminate]. inversion Hj; subst. discriminate.
  - cbn. repeat constructor; cbn; intuition discriminate.
  - discriminate.
  - intros [|[|j]] k' Hj En; [|auto|destruct j; discriminate]. inversion Hj; subst. discriminate.
  - cbn. repeat constructor; cbn; intuition discriminate.
  - intros _ l v [I|[I|[I|[]]]]; inversion I; subst; (split; [discriminate|]); vm_compute; intuition discriminate.
Qed.

(** A script that makes a domain and asks once for something impossible: code 1, and the domain in the document. *)
Example C73_generates_nonvacuous : files_ok xd (fun _ => None) gx_files /\ Forall crit_ok gx_crits /\ Forall command_ok gx_commands /\ names_ok (sy_root xd)
  /\ (forall l, Permutation (os_order plain l) l)
  /\ (exists ks s, generator_start xd (fun _ => None) gx_files gx_crits ks s gx_m0)
  /\ all_do plain xd (ev_need silent) gx_m0 gx_commands [true; true; true; true; true; false] gx_end
  /\ distinguishable (mg_crits gx_end) /\ (forall d, In d (ds_list (mg_doms gx_end)) -> exportable xd (mg_crits gx_end) (mg_fmt gx_end) d)
  /\ (exists x, g_main plain silent gx_files (script gx_crits gx_commands) = Ok (1, Some x))
  /\ map dm_name (ds_list (mg_doms gx_end)) = [lit "D"].
Proof.
  split; [exact gx_files_ok|]. split; [exact gx_crits_ok|]. split; [exact gx_commands_ok|]. split; [exact xd_names|]. split; [intros l; apply Permutation_refl|]. split.
  - destruct (criteria_started plain silent gx_files xd (fun _ => None) gx_crits [] gx_files_ok gx_crits_ok) as [ks [s [m0 [G [_ [_ E]]]]]].
    assert (g_lines plain silent gx_files (input_lines [] (flat_map crit_line gx_crits ++ input_line (lit "start") [] ++ [])) g_new = Ok (Some (Gen xd gx_m0 true 0))) as E2 by (vm_compute; reflexivity).
    rewrite E2 in E. cbn [input_lines g_lines] in E. rewrite blank_line in E. cbn [obind] in E. injection E as <-. exists ks, s. exact G.
  - split; [exact gx_done|]. split; [exact gx_distinguishable|]. split; [exact gx_exportable|]. split; [eexists; vm_compute; reflexivity|vm_compute; reflexivity].
Qed.

Example C73_blank_lines_nonvacuous : exists x,
  g_main plain silent gx_files (script gx_crits gx_commands ++ [newline] ++ [newline] ++ command_line ("deleteDomain"%string, [lit "D"])) = Ok (1, Some x).
Proof. eexists. vm_compute. reflexivity. Qed.

(** A state given twice; a name without states. *)
Example C73_bad_criterion_nonvacuous : Forall crit_ok gx_crits
  /\ (exists (incl : bool) kind n vs, [lit "inclusive"; lit "Devices"; lit "Ear"; lit "Ear"] = kind :: n :: vs /\ (kind = lit "inclusive" <-> incl = true)
        /\ (if incl then List.length vs <= 31 else (Z.of_nat (List.length vs) <= 2 ^ 31 - 1)%Z) /\ ~ makeable (CCrit (Some n) incl (Some vs)))
  /\ g_main plain silent gx_files (flat_map crit_line gx_crits ++ input_line (lit "createSelectionCriterion") [lit "inclusive"; lit "Devices"; lit "Ear"; lit "Ear"]
       ++ input_line (lit "start") []) = Ok (1, None).
Proof.
  split; [exact gx_crits_ok|]. split.
  - exists true. eexists. eexists. eexists. split; [reflexivity|]. split; [split; auto|]. split; [cbn; lia|]. intros [n [vs [_ [Ev [N _]]]]]. cbn in Ev. inversion Ev; subst. inversion N; subst. cbn in *. tauto.
  - apply C73_bad_criterion; [exact gx_crits_ok|repeat constructor; cbn; intuition discriminate|]. right.
    exists true. eexists. eexists. eexists. split; [reflexivity|]. split; [split; auto|]. split; [cbn; lia|]. intros [n [vs [_ [Ev [N _]]]]]. cbn in Ev. inversion Ev; subst. inversion N; subst. cbn in *. tauto.
Qed.

(** A platform on which tuning is prohibited. *)
Example C73_start_refused_nonvacuous : exists fl, gf_structure fl = Some (xd, (fun _ => None), false) /\ gf_settings fl = None
  /\ g_main plain silent fl (script gx_crits gx_commands) = Ok (1, None).
Proof. exists (GFiles (Some (xd, (fun _ => None), false)) None). split; [reflexivity|]. split; [reflexivity|vm_compute; reflexivity]. Qed.

Example C73_code_nonvacuous : exists x, g_main plain silent gx_files (script gx_crits (repeat ("deleteDomain"%string, [lit "X"]) 300)) = Ok (255, Some x).
Proof. eexists. vm_compute. reflexivity. Qed.

(** ** What does not hold *)

(** A generator that was never started: it still ends without an error and writes a document without domains. *)
Theorem C73_never_started_refuted : exists os ev fl input x, g_main os ev fl input = Ok (0, Some x) /\ (exists t attrs, x = XElem t attrs [])
  /\ gf_structure fl = None.
Proof. exists plain, silent, (GFiles None None), (flat_map crit_line gx_crits). eexists. split; [vm_compute; reflexivity|]. split; [eexists; eexists; reflexivity|reflexivity]. Qed.
Print Assumptions C73_never_started_refuted.

(** The usage says that the code is the number of errors, recoverable or not: after two failed commands a failed criterion gives 1. *)
Theorem C73_fatal_code_refuted : exists os ev fl cs rs args m0 bs m, files_ok xd (fun _ => None) fl /\ all_do os xd (ev_need ev) m0 rs bs m /\ failures bs = 2
  /\ g_main os ev fl (script cs rs ++ input_line (lit "createSelectionCriterion") args) = Ok (1, None).
Proof.
  exists plain, silent, gx_files, gx_crits, [("deleteDomain", [lit "X"]); ("deleteDomain", [lit "Y"])]%string, [lit "inclusive"], gx_m0, [false; false], gx_m0.
  split; [exact gx_files_ok|]. split; [|split; [reflexivity|vm_compute; reflexivity]].
  eapply ad_cons; [apply trimmed_self; repeat constructor|eapply do_command; [apply m_delete|vm_compute; reflexivity]|].
  eapply ad_cons; [apply trimmed_self; repeat constructor|eapply do_command; [apply m_delete|vm_compute; reflexivity]|].
  match goal with |- all_do _ _ _ ?m [] [] ?m' => assert (m = m') as -> by (vm_compute; reflexivity) end. apply ad_nil.
Qed.
Print Assumptions C73_fatal_code_refuted.

(** A criterion of a kind that does not exist, such as Inclusive: it is made as an exclusive one, and nothing tells it. *)
Theorem C73_kind_refuted : exists os ev fl kind n vs m, kind <> lit "inclusive" /\ kind <> lit "exclusive"
  /\ g_lines os ev fl (input_lines [] (input_line (lit "createSelectionCriterion") (kind :: n :: vs))) g_new = Ok (Some (Gen empty_system m false 0))
  /\ exists k, mg_crits m = [k] /\ cty_incl (cr_type k) = false.
Proof.
  exists plain, silent, gx_files, (lit "Inclusive"), (lit "Devices"), [lit "Ear"; lit "HS"]. eexists. split; [discriminate|]. split; [discriminate|]. split; [vm_compute; reflexivity|].
  eexists. split; reflexivity.
Qed.
Print Assumptions C73_kind_refuted.

(** An inclusive criterion with 32 values: the last one is the undefined 1 << 31. *)
Theorem C73_many_values_refuted : exists os ev fl n vs, List.length vs = 32 /\ NoDup vs /\ Forall enterable (n :: vs)
  /\ g_main os ev fl (input_line (lit "createSelectionCriterion") (lit "inclusive" :: n :: vs)) = UB.
Proof.
  exists plain, silent, gx_files, (lit "Devices"), (map (fun i => [ascii_of_nat (65 + i)]) (seq 0 32)). split; [reflexivity|]. split; [|split; [|vm_compute; reflexivity]].
  - vm_compute. repeat (constructor; [cbn; intuition discriminate|]). constructor.
  - repeat constructor; vm_compute; intuition discriminate.
Qed.
Print Assumptions C73_many_values_refuted.
