(** Proofs: the tool that makes a settings file. *)
From Coq Require Import List Arith ZArith Bool Ascii String Lia Permutation.
From Verif Require Import Base BaseProofs CriterionModel RuleModel RuleSpec TreeModel TreeSpec SyncModel DomainModel DomainSpec DomainsInv MgrModel MgrSpec MgrProofs MgrSkel DomXmlRound EditProofs
  XmlModel XmlSpec DomXmlModel DomXmlSpec DomXmlHist CatSpec CatProofs RemoteModel RemoteSpec RemoteProofs CommandModel CommandSpec CommandProps CommandProofs ReportModel ReportSpec ReportProofs ReportProofs2 GenModel GenSpec GenProofs
  EddModel EddSpec EddProofs EddLineProofs EddMeanProofs EddRunSpec EddRunProofs EddValueProofs EddExitProofs ToolModel ToolSpec.
Import ListNotations.
Local Open Scope nat_scope.

(** ** The criteria *)

Lemma lstrip_to : forall g s, gap g -> lstrip (g ++ s) = lstrip s.
Proof. induction g as [|c g IH]; intros s G; [reflexivity|]. cbn [app lstrip]. rewrite (G c (or_introl eq_refl)). apply IH. intros x I. apply G. right. exact I. Qed.

Lemma lstrip_solid : forall w s, solid w -> lstrip (w ++ s) = w ++ s.
Proof. intros [|c w] s [N H]; [congruence|]. cbn [app lstrip]. rewrite (H c (or_introl eq_refl)). reflexivity. Qed.

Lemma lstrip_inv : forall s, exists g, s = g ++ lstrip s /\ gap g /\ match lstrip s with c :: _ => py_blank c = false | [] => True end.
Proof.
  induction s as [|c s IH]; [exists []; split; [reflexivity|split; [intros x []|exact I]]|]. cbn [lstrip]. destruct (py_blank c) eqn:E.
  - destruct IH as [g [H1 [H2 H3]]]. exists (c :: g). split; [cbn [app]; congruence|]. split; [intros x [<-|J]; auto|exact H3].
  - exists []. split; [reflexivity|]. split; [intros x []|exact E].
Qed.

Lemma py_word_inv : forall s, s = fst (py_word s) ++ snd (py_word s) /\ (forall c, In c (fst (py_word s)) -> py_blank c = false) /\ match snd (py_word s) with c :: _ => py_blank c = true | [] => True end.
Proof.
  induction s as [|c s [H1 [H2 H3]]]; [repeat split; intros c []|]. cbn [py_word]. destruct (py_blank c) eqn:E; cbn [fst snd].
  - repeat split; [intros x []|exact E].
  - split; [cbn [app]; congruence|]. split; [intros x [<-|J]; auto|exact H3].
Qed.

Lemma py_word_to : forall w r, (forall c, In c w -> py_blank c = false) -> match r with c :: _ => py_blank c = true | [] => True end -> py_word (w ++ r) = (w, r).
Proof.
  induction w as [|c w IH]; intros r S R; cbn [app py_word].
  - destruct r as [|c r]; [reflexivity|]. cbn [py_word]. rewrite R. reflexivity.
  - rewrite (S c (or_introl eq_refl)). rewrite (IH r); auto. intros x I. apply S. right. exact I.
Qed.

Lemma last_colon_at : forall a b, a <> [] -> ~ In ":"%char b -> last_colon (a ++ ":"%char :: b) = Some (a, b).
Proof.
  assert (forall b, ~ In ":"%char b -> last_colon b = None) as NB.
  { induction b as [|c b IH]; intros N; [reflexivity|]. cbn [last_colon]. rewrite IH by (intros I; apply N; right; exact I). destruct b as [|d b]; [reflexivity|].
    destruct (char_eqb d ":"%char) eqn:E; [|reflexivity]. apply char_eqb_eq in E. subst d. exfalso. apply N. right. left. reflexivity. }
  induction a as [|c a IH]; intros b N B; [congruence|]. cbn [app last_colon]. destruct a as [|d a].
  - cbn [app]. assert (last_colon (":"%char :: b) = None) as ->; [|rewrite char_eqb_refl; reflexivity].
    cbn [last_colon]. rewrite (NB b B). destruct b as [|d b]; [reflexivity|]. destruct (char_eqb d ":"%char) eqn:E; [|reflexivity]. apply char_eqb_eq in E. subst d. exfalso. apply B. left. reflexivity.
  - rewrite IH; [reflexivity|discriminate|exact B].
Qed.

Lemma last_colon_Some : forall w a b, last_colon w = Some (a, b) -> w = a ++ ":"%char :: b /\ a <> [].
Proof.
  induction w as [|c w IH]; intros a b H; cbn [last_colon] in H; [discriminate|]. destruct (last_colon w) as [[a' b']|] eqn:E.
  - injection H as <- <-. destruct (IH _ _ eq_refl) as [-> N]. split; [reflexivity|discriminate].
  - destruct w as [|d w]; [discriminate|]. destruct (char_eqb d ":"%char) eqn:Ed; [|discriminate]. injection H as <- <-. apply char_eqb_eq in Ed. subst d. split; [reflexivity|discriminate].
Qed.

Lemma last_colon_None : forall w, last_colon w = None -> forall a b, w = a ++ ":"%char :: b -> a = [].
Proof.
  induction w as [|c w IH]; intros H a b E; [destruct a; discriminate E|]. cbn [last_colon] in H. destruct (last_colon w) as [[a' b']|] eqn:L; [discriminate|].
  destruct a as [|x a]; [reflexivity|]. cbn [app] in E. injection E as -> E. pose proof (IH eq_refl a b E) as ->. cbn [app] in E. rewrite E in H. rewrite char_eqb_refl in H. discriminate.
Qed.

Lemma fields_word : forall w cur r, (forall c, In c w -> py_blank c = false) -> blank_fields cur (w ++ r) = blank_fields (rev w ++ cur) r.
Proof.
  induction w as [|c w IH]; intros cur r S; [reflexivity|]. cbn [app blank_fields]. rewrite (S c (or_introl eq_refl)). rewrite IH by (intros x I; apply S; right; exact I).
  cbn [rev]. rewrite <- app_assoc. reflexivity.
Qed.

Lemma fields_gap : forall g cur c r, gap g -> g <> [] -> py_blank c = false -> blank_fields cur (g ++ c :: r) = rev cur :: blank_fields [] (c :: r).
Proof.
  induction g as [|b g IH]; intros cur c r G N Hc; [congruence|]. cbn [app blank_fields]. rewrite (G b (or_introl eq_refl)). destruct g as [|b' g].
  - cbn [app]. rewrite Hc. cbn [blank_fields]. rewrite Hc. reflexivity.
  - cbn [app]. rewrite (G b' (or_intror (or_introl eq_refl))). change (b' :: g ++ c :: r) with ((b' :: g) ++ c :: r). apply IH; auto; [intros x I; apply G; right; exact I|discriminate].
Qed.

Lemma spaced_head : forall ws s, spaced ws s -> exists c r, s = c :: r /\ py_blank c = false.
Proof.
  intros ws s H. destruct H as [w [N S]|w g ws s [N S] G Ng H]; destruct w as [|c w]; try congruence; exists c; eexists; (split; [reflexivity|apply S; left; reflexivity]).
Qed.

Lemma fields_spaced : forall ws s, spaced ws s -> blank_fields [] s = ws.
Proof.
  intros ws s H. induction H as [w [N S]|w g ws s [N S] G Ng H IH].
  - rewrite <- (app_nil_r w) at 1. rewrite fields_word by exact S. cbn [blank_fields]. rewrite app_nil_r, rev_involutive. reflexivity.
  - rewrite fields_word by exact S. destruct (spaced_head _ _ H) as [c [r [-> Hc]]]. rewrite fields_gap; auto. rewrite IH, app_nil_r, rev_involutive. reflexivity.
Qed.

Lemma tags_differ : forall r, starts_with (lit "InclusiveCriterion") (lit "ExclusiveCriterion" ++ r) = None.
Proof. reflexivity. Qed.

Definition crit_after (incl : bool) (r : str) : option gcrit :=
  let '(w, rest) := py_word (lstrip r) in
  match w with
  | [] => None
  | _ :: _ =>
      match lstrip rest with
      | c :: v => if char_eqb c ":"%char then Some (GCrit incl w (blank_fields [] (lstrip v)))
                  else match last_colon w with Some (n, v') => Some (GCrit incl n (blank_fields [] (lstrip (v' ++ rest)))) | None => None end
      | [] => match last_colon w with Some (n, v') => Some (GCrit incl n (blank_fields [] (lstrip (v' ++ rest)))) | None => None end
      end
  end.

Lemma parse_tag : forall incl r, parse_criterion (crit_tag incl ++ r) = crit_after incl r.
Proof. intros [|] r; unfold parse_criterion, crit_tag; [rewrite starts_with_app|rewrite tags_differ, starts_with_app]; reflexivity. Qed.

Lemma colon_solid : py_blank ":"%char = false.
Proof. reflexivity. Qed.

Lemma no_colon_head : forall values s rest v, spaced values s -> (forall v, In v values -> ~ In ":"%char v) -> s = v ++ rest -> solid v -> match rest with c :: _ => py_blank c = true | [] => True end ->
  ~ In ":"%char v /\ match lstrip rest with c :: _ => c <> ":"%char | [] => True end.
Proof.
  intros values s rest v Sp NC E [Nv Sv] Hr.
  assert (~ In ":"%char s) as Ns.
  { clear - Sp NC. induction Sp as [w W|w g ws s W G Ng Sp IH]; [apply NC; left; reflexivity|]. intros I. apply in_app_iff in I. destruct I as [I|I]; [exact (NC w (or_introl eq_refl) I)|].
    apply in_app_iff in I. destruct I as [I|I]; [apply G in I; discriminate I|]. apply IH; [intros v J; apply NC; right; exact J|exact I]. }
  split; [intros I; apply Ns; rewrite E; apply in_app_iff; left; exact I|]. destruct (lstrip_inv rest) as [g [H1 [_ _]]]. destruct (lstrip rest) as [|c r]; [exact I|]. intros ->.
  apply Ns. rewrite E, H1. apply in_app_iff. right. apply in_app_iff. right. left. reflexivity.
Qed.

Lemma crit_read : forall line c, crit_written line c -> parse_criterion line = Some c.
Proof.
  intros line cr [incl g1 name g2 g3 values s G1 N G2 G3 Sp Cond]. rewrite parse_tag. unfold crit_after. rewrite lstrip_to by exact G1. rewrite lstrip_solid by exact N.
  pose proof (spaced_head _ _ Sp) as [c0 [r0 [Es Hc0]]].
  assert (Ls : lstrip s = s) by (rewrite Es; cbn [lstrip]; rewrite Hc0; reflexivity).
  destruct g2 as [|b g2].
  - assert (NC : forall v, In v values -> ~ In ":"%char v) by (destruct Cond as [X|X]; [congruence|exact X]). clear Cond. cbn [app].
    assert (exists v rest, g3 ++ s = v ++ rest /\ (forall x, In x v -> py_blank x = false) /\ ~ In ":"%char v /\ match rest with c :: _ => py_blank c = true | [] => True end
              /\ match lstrip rest with c :: _ => c <> ":"%char | [] => True end) as [v [rest [E1 [Sv [Nv [Hr Hl]]]]]].
    { destruct g3 as [|b3 g3].
      - cbn [app]. assert (exists v rest, s = v ++ rest /\ solid v /\ match rest with c :: _ => py_blank c = true | [] => True end) as [v [rest [E1 [Sv Hr]]]].
        { destruct Sp as [w W|w g ws s' W G Ng Sp']; [exists w, []|exists w, (g ++ s')]; (split; [rewrite ?app_nil_r; reflexivity|]; split; [exact W|]).
          - exact I.
          - destruct g as [|x g]; [congruence|]. cbn [app]. apply G. left. reflexivity. }
        destruct (no_colon_head _ _ _ _ Sp NC E1 Sv Hr) as [A B]. exists v, rest. split; [exact E1|]. split; [apply Sv|]. split; [exact A|]. split; [exact Hr|exact B].
      - exists [], ((b3 :: g3) ++ s). split; [reflexivity|]. split; [intros x []|]. split; [intros []|]. split; [apply G3; left; reflexivity|].
        rewrite lstrip_to by exact G3. rewrite Ls, Es. intros ->. rewrite Es in Sp. clear - Sp NC. inversion Sp as [w W E|w g ws s' W G Ng Sp' E E2]; subst.
        + exact (NC _ (or_introl eq_refl) (or_introl eq_refl)).
        + destruct w as [|x w]; [destruct W; congruence|]. injection E2 as -> _. exact (NC _ (or_introl eq_refl) (or_introl eq_refl)). }
    rewrite E1. replace (name ++ ":"%char :: v ++ rest) with ((name ++ ":"%char :: v) ++ rest) by (rewrite <- app_assoc; reflexivity).
    rewrite py_word_to; [|intros x J; apply in_app_iff in J; destruct J as [J|[<-|J]]; [apply N; exact J|reflexivity|apply Sv; exact J]|exact Hr].
    destruct (name ++ ":"%char :: v) as [|z zs] eqn:Ez; [destruct name; discriminate Ez|]. rewrite <- Ez. rewrite (last_colon_at name v (proj1 N) Nv), <- E1, lstrip_to by exact G3. rewrite Ls, (fields_spaced _ _ Sp).
    destruct (lstrip rest) as [|c v0]; [reflexivity|]. destruct (char_eqb c ":"%char) eqn:Ec; [|reflexivity]. apply char_eqb_eq in Ec. contradiction.
  - rewrite py_word_to; [|apply N|cbn [app]; apply G2; left; reflexivity]. destruct name as [|z zs]; [destruct N; congruence|]. rewrite lstrip_to by exact G2. cbn [lstrip]. rewrite colon_solid, char_eqb_refl.
    rewrite lstrip_to by exact G3. rewrite Ls, (fields_spaced _ _ Sp). reflexivity.
Qed.

(** The lines that are refused. *)
Lemma crit_refused : forall line, parse_criterion line = None <-> ~ exists incl g name g' r, line = crit_tag incl ++ g ++ name ++ g' ++ ":"%char :: r /\ gap g /\ solid name /\ gap g'.
Proof.
  intros line. split.
  - intros H [incl [g [name [g' [r [-> [G [N G']]]]]]]]. rewrite parse_tag in H. unfold crit_after in H. rewrite lstrip_to in H by exact G. rewrite lstrip_solid in H by exact N.
    destruct (py_word (name ++ g' ++ ":"%char :: r)) as [w rest] eqn:Ew. pose proof (py_word_inv (name ++ g' ++ ":"%char :: r)) as [E1 [E2 E3]]. rewrite Ew in E1, E2, E3. cbn [fst snd] in E1, E2, E3.
    destruct g' as [|b g'].
    + cbn [app] in E1.
      assert (exists v, w = name ++ ":"%char :: v) as [v ->].
      { clear - E1 E2 E3 N. revert w E1 E2. destruct N as [_ N]. induction name as [|c name IH]; intros w E1 E2; cbn [app] in E1 |- *.
        - destruct w as [|x w]; [cbn [app] in E1; rewrite <- E1 in E3; discriminate E3|]. injection E1 as <- E1. exists w. reflexivity.
        - destruct w as [|x w]; [cbn [app] in E1; rewrite <- E1 in E3; rewrite (N c (or_introl eq_refl)) in E3; discriminate E3|]. injection E1 as <- E1.
          destruct (IH (fun x I => N x (or_intror I)) w E1 (fun x I => E2 x (or_intror I))) as [v ->]. exists v. reflexivity. }
      assert (last_colon (name ++ ":"%char :: v) <> None) as Lc by (intros L; exact (proj1 N (last_colon_None _ L name v eq_refl))).
      destruct (name ++ ":"%char :: v) as [|z zs]; [apply Lc; reflexivity|]. destruct (last_colon (z :: zs)) as [[n v']|]; [|congruence].
      destruct (lstrip rest) as [|c v0]; [discriminate|]. destruct (char_eqb c ":"%char); discriminate.
    + rewrite py_word_to in Ew; [|apply N|cbn [app]; apply G'; left; reflexivity]. injection Ew as <- <-. destruct name as [|z zs]; [destruct N; congruence|].
      change (b :: g' ++ ":"%char :: r) with ((b :: g') ++ (":"%char :: r)) in H. rewrite (lstrip_to (b :: g') (":"%char :: r) G') in H. cbn [lstrip] in H. rewrite colon_solid, char_eqb_refl in H. discriminate.
  - intros H. destruct (parse_criterion line) as [c|] eqn:E; [|reflexivity]. exfalso. apply H. unfold parse_criterion in E.
    assert (exists incl r, line = crit_tag incl ++ r /\ crit_after incl r = Some c) as [incl [r [-> Ec]]].
    { destruct (starts_with (lit "InclusiveCriterion") line) as [r|] eqn:S1; [exists true, r; split; [exact (starts_with_Some _ _ _ S1)|exact E]|].
      destruct (starts_with (lit "ExclusiveCriterion") line) as [r|] eqn:S2; [|discriminate]. exists false, r. split; [exact (starts_with_Some _ _ _ S2)|exact E]. }
    unfold crit_after in Ec. destruct (lstrip_inv r) as [g [Er [G _]]]. destruct (py_word (lstrip r)) as [w rest] eqn:Ew. pose proof (py_word_inv (lstrip r)) as [E1 [E2 E3]]. rewrite Ew in E1, E2, E3. cbn [fst snd] in E1, E2, E3.
    destruct w as [|z zs]; [discriminate|].
    assert (D : (exists v, lstrip rest = ":"%char :: v) \/ exists n v', last_colon (z :: zs) = Some (n, v')).
    { destruct (lstrip rest) as [|d v]; [right; destruct (last_colon (z :: zs)) as [[n v']|]; [eauto|discriminate]|]. destruct (char_eqb d ":"%char) eqn:Ed.
      - left. apply char_eqb_eq in Ed. subst d. eauto.
      - right. destruct (last_colon (z :: zs)) as [[n v']|]; [eauto|discriminate]. }
    destruct D as [[v L]|[n [v' L]]].
    + destruct (lstrip_inv rest) as [g' [Er' [G' _]]]. exists incl, g, (z :: zs), g', v. split; [|split; [exact G|split; [split; [discriminate|exact E2]|exact G']]].
      rewrite Er at 1. rewrite E1, Er' at 1. rewrite L. reflexivity.
    + apply last_colon_Some in L. destruct L as [L Nn]. exists incl, g, n, [], (v' ++ rest). split; [|split; [exact G|split; [split; [exact Nn|intros x J; apply E2; rewrite L; apply in_app_iff; left; exact J]|intros x []]]].
      rewrite Er at 1. rewrite E1, L. cbn [app]. rewrite <- app_assoc. reflexivity.
Qed.

(** ** The text *)

Lemma joined_line : forall n args, EddModel.command_line (n :: args) = n ++ flat_map (fun a => zero :: a) args.
Proof.
  intros n args. unfold EddModel.command_line. revert n. induction args as [|a args IH]; intros n; [cbn [joined flat_map]; rewrite app_nil_r; reflexivity|].
  change (joined [ascii_of_nat 0] (n :: a :: args)) with (n ++ [zero] ++ joined [ascii_of_nat 0] (a :: args)). rewrite IH. reflexivity.
Qed.

Lemma line_request : forall s args, EddModel.command_line (lit s :: args) ++ [ascii_of_nat 10] = GenSpec.command_line (as_request (lit s :: args)).
Proof. intros s args. rewrite req_name, joined_line. unfold GenSpec.command_line, input_line. cbn [fst snd]. rewrite <- app_assoc. reflexivity. Qed.

Lemma lines_requests : forall need cmds, Forall (possible need) cmds -> flat_map (fun c => EddModel.command_line c ++ [ascii_of_nat 10]) cmds = flat_map GenSpec.command_line (map as_request cmds).
Proof.
  intros need cmds F. induction F as [|c cmds [s [args [-> _]]] F IH]; [reflexivity|]. cbn [flat_map map]. rewrite IH, line_request. reflexivity.
Qed.

Lemma tool_text : forall need cs settings files cmds, Forall (possible need) cmds ->
  flat_map (fun c => EddModel.command_line c ++ [ascii_of_nat 10]) (tool_commands cs settings files cmds) = GenSpec.script cs (import_requests settings files ++ map as_request cmds).
Proof.
  intros need cs settings files cmds F. unfold tool_commands, GenSpec.script, import_requests. rewrite !flat_map_app, <- !app_assoc.
  pose proof (lines_requests need cmds F) as H5.
  assert (H1 : flat_map (fun c => EddModel.command_line c ++ [ascii_of_nat 10]) (map (fun c => lit "createSelectionCriterion" :: lit (if gc_incl c then "inclusive" else "exclusive") :: gc_name c :: gc_values c) cs) = flat_map crit_line cs).
  { clear. induction cs as [|c cs IH]; [reflexivity|]. cbn [map flat_map]. rewrite IH. f_equal. unfold crit_line, input_line. rewrite joined_line. rewrite <- app_assoc. reflexivity. }
  assert (H2 : flat_map (fun c => EddModel.command_line c ++ [ascii_of_nat 10]) [[lit "start"]] = input_line (lit "start") []) by reflexivity.
  assert (H3 : flat_map (fun c => EddModel.command_line c ++ [ascii_of_nat 10]) (match settings with Some f => [[lit "importDomainsWithSettingsXML"; f]] | None => [] end) = flat_map GenSpec.command_line (match settings with Some f => [("importDomainsWithSettingsXML"%string, [f])] | None => [] end)).
  { destruct settings as [f|]; [|reflexivity]. cbn [flat_map]. rewrite (line_request "importDomainsWithSettingsXML" [f]), req_name. reflexivity. }
  assert (H4 : flat_map (fun c => EddModel.command_line c ++ [ascii_of_nat 10]) (map (fun f => [lit "importDomainWithSettingsXML"; f]) files) = flat_map GenSpec.command_line (map (fun f => ("importDomainWithSettingsXML"%string, [f])) files)).
  { clear. induction files as [|f files IH]; [reflexivity|]. cbn [map flat_map]. rewrite IH. rewrite (line_request "importDomainWithSettingsXML" [f]), req_name. reflexivity. }
  exact (f_equal2 (@app _) H1 (f_equal2 (@app _) H2 (f_equal2 (@app _) H3 (f_equal2 (@app _) H4 H5)))).
Qed.

(** ** The requests *)

Lemma commands_prefix : forall os ev fl y rs m bs m' k r, all_do os y (ev_need ev) m rs bs m' -> Forall command_ok rs ->
  g_lines os ev fl (input_lines [] (flat_map GenSpec.command_line rs ++ r)) (Gen y m true k) = g_lines os ev fl (input_lines [] r) (Gen y m' true (k + failures bs)).
Proof.
  intros os ev fl y rs m bs m' k r A. revert k. induction A as [m|m name args args' rs b m1 bs m2 T D A IH]; intros k F.
  - cbn [flat_map app]. unfold failures. cbn. rewrite Nat.add_0_r. reflexivity.
  - inversion F as [|? ? [N [C Ca]] Fr]; subst. cbn [fst snd] in N, C, Ca. cbn [flat_map]. rewrite <- app_assoc. unfold GenSpec.command_line at 1. cbn [fst snd]. rewrite line_split; auto. cbn [g_lines].
    unfold g_line. rewrite words_split; auto. destruct (not_special name args' os y (ev_need ev) m b m1 D) as [-> ->]. cbn [gn_sys gn_mgr gn_loaded gn_errors].
    rewrite make_request_trim, (trim_all _ _ T). destruct (does_processed os y ev m name args' b m1 D) as [t E]. rewrite E. cbn [obind fst snd an_ok].
    rewrite IH; auto. f_equal. f_equal. unfold failures. cbn [filter]. destruct b; cbn [negb List.length]; lia.
Qed.

Lemma imports_tuning : forall os y need settings files m bs m', all_do os y need m (import_requests settings files) bs m' -> mg_tuning m' = mg_tuning m /\ mg_crits m' = mg_crits m /\ mg_fmt m' = mg_fmt m.
Proof.
  intros os y need settings files m bs m' A.
  assert (Forall (fun r => fst r = "importDomainsWithSettingsXML"%string \/ fst r = "importDomainWithSettingsXML"%string) (import_requests settings files)) as F.
  { unfold import_requests. apply Forall_app. split; [destruct settings; repeat constructor; auto|]. apply Forall_maps. intros x. right. reflexivity. }
  induction A as [m|m name args args' r b m1 bs m2 T D A IH]; [auto|]. pose proof (Forall_inv F) as F1. apply Forall_inv_tail in F. cbn [fst] in F1.
  destruct (IH F) as [H1 [H2 H3]]. rewrite H1, H2, H3. clear - D F1.
  destruct D as [c b' m1 M St|text ws file b' m1 I E|text over ws file b' m1 I E V|N H|n H L Sn]; auto.
  - exfalso. destruct F1 as [-> | ->]; inversion M.
  - unfold import_domains, tuned in E. destruct (mg_tuning m) eqn:Tm; [|inversion E; subst; auto]. destruct (os_read os file text) as [x|]; [|inversion E; subst; auto].
    destruct (import_all _ _ _ _ _) as [[b0 s0]| | |]; cbn [obind fst snd] in E; try discriminate. destruct b0; [|inversion E; subst; auto].
    destruct (ds_validate _ _ _); cbn [obind] in E; try discriminate. inversion E; subst; auto.
  - unfold import_domain, tuned in E. destruct (mg_tuning m) eqn:Tm; [|inversion E; subst; auto]. destruct (os_read os file text) as [x|]; [|inversion E; subst; auto].
    unfold on_doms in E. destruct (import_one _ _ _ _ _ _) as [[b0 s0]| | |]; cbn [obind fst snd] in E; try discriminate. inversion E; subst; auto.
Qed.

Lemma zero_after : forall os ev fl y given cs rs cmds x, files_ok y given fl -> Forall crit_ok cs -> (forall l, Permutation (os_order os l) l) ->
  Forall command_ok rs -> Forall (possible (ev_need ev)) cmds -> Forall (Forall tidy) cmds -> Forall (Forall enterable) cmds ->
  g_main os ev fl (GenSpec.script cs (rs ++ map as_request cmds)) = Ok (0, Some x) ->
  exists ks s m0, generator_start y given fl cs ks s m0 /\ history y m0 /\ mg_tuning m0 = true
    /\ (exists g, g_lines os ev fl (input_lines [] (flat_map GenSpec.command_line rs ++ flat_map GenSpec.command_line (map as_request cmds))) (Gen y m0 true 0) = Ok g)
    /\ forall bs1 m1, all_do os y (ev_need ev) m0 rs bs1 m1 -> failures bs1 = 0
       /\ exists m bs, all_do os y (ev_need ev) m1 (map as_request cmds) bs m /\ failures bs = 0
    /\ export_domains y true m = Ok x /\ forall q, ~ shared m q.
Proof.
  intros os ev fl y given cs rs cmds x Fo F P Rk Ps T En G. pose proof (proj1 (proj2 Fo)) as Sy. pose proof (script_commands_ok _ _ Ps En) as Ck.
  destruct (criteria_started os ev fl y given cs (flat_map GenSpec.command_line (rs ++ map as_request cmds)) Fo F) as [ks [s [m0 [Gs [H [Tu E]]]]]].
  exists ks, s, m0. split; [exact Gs|]. split; [exact H|]. split; [exact Tu|]. rewrite flat_map_app in E. split.
  { unfold g_main, GenSpec.script in G. rewrite flat_map_app, E in G. destruct (g_lines os ev fl _ (Gen y m0 true 0)) as [g| | |]; try discriminate. exists g. reflexivity. }
  intros bs1 m1 A1. pose proof (all_do_history _ _ _ _ _ _ _ A1 H) as H1. rewrite (commands_prefix os ev fl y rs m0 bs1 m1 0 _ A1 Rk) in E. cbn [Nat.add] in E.
  destruct (run_or_abort os ev fl y cmds m1 (failures bs1) Sy H1 Ps T Ck) as [[bs [m A]]|Ab].
  - rewrite (commands_made os ev fl y _ m1 bs m (failures bs1) A Ck) in E. pose proof (all_do_history _ _ _ _ _ _ _ A H1) as Hm.
    unfold GenSpec.script in G. rewrite flat_map_app in G.
    assert (exists x', export_domains y true m = Ok x') as [x' Ex].
    { destruct (export_domains y true m) as [x'| | |] eqn:Ex; eauto; exfalso; unfold g_main in G; rewrite E in G; cbn [obind] in G;
        destruct (history_sound y m Sy Hm) as [[K _] _]; destruct (conflicts_told os ev y m (failures bs1 + failures bs) K P) as [b [Ec _]]; rewrite Ec in G; cbn [obind gn_sys gn_mgr] in G; rewrite Ex in G; discriminate. }
    destruct (main_ends os ev fl y m (failures bs1 + failures bs) _ x' Hm Sy P E Ex) as [code [Em Ec]]. rewrite Em in G. injection G as -> ->.
    destruct Ec as [[_ Z]|[N Z]]; [lia|]. split; [lia|]. exists m, bs. split; [exact A|]. split; [lia|]. split; [exact Ex|exact N].
  - exfalso. unfold g_main in G. unfold GenSpec.script in G. rewrite flat_map_app, E, Ab in G. discriminate.
Qed.

(** ** Several files *)

Lemma edds_read : forall edds docs z, Forall2 file_good edds docs -> parse_edds edds = Ok (inr z) -> forall cmds, edds_commands z = Ok cmds ->
  Forall even (List.concat docs) /\ cmds = flat_map EddSpec.script docs.
Proof.
  intros edds docs z F. revert z. induction F as [|f doc edds docs [Hp [Ho _]] F IH]; intros z Hz cmds Hc; cbn [parse_edds] in Hz.
  - injection Hz as <-. injection Hc as <-. split; [constructor|reflexivity].
  - rewrite Hp in Hz. destruct (propagate_all no_ctx doc) as [d| | |] eqn:Ed; try discriminate. destruct (parse_edds edds) as [[k|ds]| | |]; try discriminate. cbn [obind] in Hz. injection Hz as <-.
    cbn [edds_commands] in Hc. destruct (all_commands d) as [a| | |] eqn:Ea; try discriminate. cbn [obind] in Hc. destruct (edds_commands ds) as [b| | |] eqn:Eb; try discriminate. injection Hc as <-.
    destruct (IH ds eq_refl b Eb) as [I1 I2]. assert (edd_script f = Ok a) as Es by (unfold edd_script, edd_commands; rewrite Hp; cbn [obind]; rewrite Ed; exact Ea).
    destruct (even_file _ _ _ Hp Ho Es) as [E1 E2]. cbn [List.concat flat_map]. split; [apply Forall_app; auto|]. rewrite <- I2, <- E2. reflexivity.
Qed.

Lemma scripts_succeed : forall os y need docs m bs m', Forall (Forall tidy) (flat_map EddSpec.script docs) ->
  all_do os y need m (map as_request (flat_map EddSpec.script docs)) bs m' -> failures bs = 0 -> succeed y m (flat_map dom_cmds (flat_map domains_of docs)) m'.
Proof.
  intros os y need docs m bs m' T A B. eapply all_cmds; [|exact T|exact A|].
  - assert (flat_map dom_cmds (flat_map domains_of docs) = flat_map (fun d => flat_map dom_cmds (domains_of d)) docs) as ->.
    { clear. induction docs as [|d docs IH]; [reflexivity|]. cbn [flat_map]. rewrite flat_map_app, IH. reflexivity. }
    apply Forall2_flat. intros d _. unfold EddSpec.script. apply Forall2_flat. intros w _. apply dom_requests.
  - unfold failures in B. apply Forall_forall. intros b I. destruct b; [reflexivity|]. exfalso.
    assert (In false (filter negb bs)) as J by (apply filter_In; auto). destruct (filter negb bs); [destruct J|discriminate B].
Qed.

Lemma files_built : forall os y need docs m bs m', system_ok y -> names_ok (sy_root y) -> history y m -> mg_tuning m = true ->
  Forall (fun doc => Forall (shaped KRoot) doc /\ Forall even doc) docs -> Forall (Forall tidy) (flat_map EddSpec.script docs) ->
  all_do os y need m (map as_request (flat_map EddSpec.script docs)) bs m' -> failures bs = 0 ->
  (exists ds, see m' = see m ++ ds /\ Forall2 (domain_as_said (sy_root y) (mg_crits m)) (flat_map domains_of docs) ds)
  /\ forall w v s x, In w (flat_map domains_of docs) -> In v (confs_of w) -> In (s, x) (sets (target v)) ->
     exists q e, names_parameter (sy_root y) s q /\ param_at (sy_root y) q e
       /\ (whole (e_kind e) x -> exists bb, access_set (sy_root y) (mg_fmt m) s x 0 (mg_main m) = Ok (true, bb)
             /\ get_recorded y (full_domain w) (full_conf v) s m' = access_get (sy_root y) (mg_fmt m) s 0 bb).
Proof.
  intros os y need docs m bs m' Sy Nm Hh T Fd Ht A B. pose proof (scripts_succeed _ _ _ _ _ _ _ Ht A B) as Su.
  destruct (view_succeed y _ m m' Sy Nm Hh T (scripted_cmds _) Su) as [Hh' [_ [_ [_ V]]]].
  assert (Hw : forall w, In w (flat_map domains_of docs) -> (forall s, In s (added w) -> exists p, names_parameter (sy_root y) s p) /\ (forall v, In v (confs_of w) -> Permutation (added w) (elements [] (target v)))
             /\ forall v, In v (confs_of w) -> Permutation (added w) (map fst (sets (target v)))).
  { intros w Iw. apply in_flat_map in Iw. destruct Iw as [doc [Id Iw]]. rewrite Forall_forall in Fd. destruct (Fd doc Id) as [Sh He]. split; [|split].
    - intros s Is. destruct (added_set doc w s Sh He Iw Is) as [v [x [Iv Ix]]].
      assert (In (CSetConfigParameter (full_domain w) (full_conf v) s x) (flat_map dom_cmds (flat_map domains_of docs))) as Ic.
      { pose proof (set_cmd_in _ _ _ _ _ Iw Iv Ix) as J. apply in_flat_map in J. destruct J as [w0 [J1 J2]]. apply in_flat_map. exists w0. split; [apply in_flat_map; exists doc; auto|exact J2]. }
      destruct (succeed_In _ _ _ _ _ Su Ic) as [m1 [m2 E]]. exact (set_is_param _ _ _ _ _ _ _ Sy E).
    - intros v Iv. rewrite (added_sets doc w v Sh He Iw Iv). symmetry. apply elements_sets.
    - intros v Iv. exact (added_sets doc w v Sh He Iw Iv). }
  split.
  - apply (file_run _ _ _ _ _ Sy Nm) in V; [exact V|]. intros w Iw. destruct (Hw w Iw) as [X [Y _]]. auto.
  - intros w v s x Iw Iv Is. pose proof (proj2 (proj2 (Hw w Iw)) v Iv) as Pw.
    apply in_split in Iw. destruct Iw as [ws1 [ws2 Ew]]. apply in_split in Iv. destruct Iv as [vs1 [vs2 Ev]]. apply in_split in Is. destruct Is as [s1 [s2 Es]].
    rewrite Ew in Hw, Su.
    destruct (value_kept y ws1 w ws2 vs1 v vs2 s1 s x s2 m m' Sy Nm Hh T (fun z I => conj (proj1 (Hw z I)) (proj1 (proj2 (Hw z I)))) Pw Ev Es Su) as [q [e [bb0 [bb [L [P [Lb [Ea Re]]]]]]]].
    exists q, e. split; [split; [exact L|exists e; exact P]|]. split; [exact P|]. intros Wh.
    destruct (history_sound y m Sy Hh) as [[_ [_ L0]] _]. exact (value_read y _ _ s x q e bb0 bb m m' Sy Hh' L P Lb Ea Re Wh L0).
Qed.

(** ** The whole *)

Lemma criteria_read : forall crits cs, Forall2 crit_written crits cs -> parse_criteria crits = Some cs.
Proof. intros crits cs F. induction F as [|l c crits cs H F IH]; [reflexivity|]. cbn [parse_criteria]. rewrite (crit_read _ _ H), IH. reflexivity. Qed.

Lemma Forall_concat_inv : forall (A : Type) (P : A -> Prop) ls, Forall P (List.concat ls) -> Forall (Forall P) ls.
Proof. intros A P. induction ls as [|l ls IH]; intros H; constructor; cbn [List.concat] in H; apply Forall_app in H; [apply H|apply IH; apply H]. Qed.

Lemma imports_ok : forall settings files, (forall f, settings = Some f -> enterable f) -> Forall enterable files -> Forall command_ok (import_requests settings files).
Proof.
  intros settings files Hs Hf. unfold import_requests. apply Forall_app. split.
  - destruct settings as [f|]; [|constructor]. repeat constructor; cbn [fst snd]; try discriminate; try (vm_compute; intuition discriminate); apply (Hs f eq_refl).
  - induction Hf as [|f files H Hf IH]; cbn [map]; constructor; auto. repeat constructor; cbn [fst snd]; try discriminate; try (vm_compute; intuition discriminate); apply H.
Qed.

Lemma settings_imported : forall os ev fl y m k f r, enterable f ->
  (exists bs m', all_do os y (ev_need ev) m (import_requests (Some f) []) bs m')
  \/ forall g, g_lines os ev fl (input_lines [] (flat_map GenSpec.command_line (import_requests (Some f) []) ++ r)) (Gen y m true k) <> Ok g.
Proof.
  intros os ev fl y m k f r Ef. assert (Forall command_ok (import_requests (Some f) [])) as Ck by (apply imports_ok; [intros f' E; injection E as <-; exact Ef|constructor]).
  destruct (import_domains y true (os_read os true (trim f)) m) as [[b m']| | |] eqn:E.
  1: { left. exists [b], m'. apply ad_cons with [trim f] m'; [constructor; [apply trim_spec|constructor]| |constructor]. eapply do_domains; [constructor|exact E]. }
  all: right; intros g H; cbn [import_requests app map flat_map] in H; rewrite app_nil_r in H; unfold GenSpec.command_line in H; cbn [fst snd] in H;
    pose proof (Forall_inv Ck) as C1; destruct C1 as [N [C Ca]]; cbn [fst snd] in N, C, Ca; rewrite line_split in H by auto; cbn [g_lines] in H; unfold g_line in H; rewrite words_split in H by auto;
    change (str_eqb (lit "importDomainsWithSettingsXML") (lit "createSelectionCriterion")) with false in H; change (str_eqb (lit "importDomainsWithSettingsXML") (lit "start")) with false in H; cbn [gn_sys gn_mgr gn_loaded gn_errors] in H;
    rewrite make_request_trim in H; cbn [map] in H;
    assert (exists o, process y (reporting os y ev) m (Request (lit "importDomainsWithSettingsXML") [trim f]) = o /\ forall z, o <> Ok z) as [o [Eo No]];
    [eexists; split; [known; unfold one_arg; cbn [execute]; unfold done; cbn [ev_import reporting import_from]; rewrite E; cbn [obind]; reflexivity|intros z; discriminate]
    |rewrite Eo in H; destruct o as [z| | |]; cbn [obind] in H; try discriminate; exact (No z eq_refl)].
Qed.

Lemma tool_whole : forall os ev fl y given criteria cs settings files edds docs x, files_ok y given fl -> names_ok (sy_root y) -> (forall l, Permutation (os_order os l) l) ->
  Forall2 crit_written criteria cs -> Forall crit_ok cs -> (forall f, settings = Some f -> enterable f) -> Forall enterable files -> Forall2 file_good edds docs ->
  tool_main os ev fl criteria settings files edds = Ok (0, Some x) ->
  exists ks s m0, generator_start y given fl cs ks s m0
    /\ (files = [] -> exists bs m1, all_do os y (ev_need ev) m0 (import_requests settings files) bs m1)
    /\ forall bs m1, all_do os y (ev_need ev) m0 (import_requests settings files) bs m1 ->
       failures bs = 0 /\ exists m ds, export_domains y true m = Ok x /\ see m = see m1 ++ ds /\ Forall2 (domain_as_said (sy_root y) (mg_crits m1)) (flat_map domains_of docs) ds
       /\ (forall w v t z, In w (flat_map domains_of docs) -> In v (confs_of w) -> In (t, z) (sets (target v)) ->
             exists q e, names_parameter (sy_root y) t q /\ param_at (sy_root y) q e
               /\ (whole (e_kind e) z -> exists bb, access_set (sy_root y) (mg_fmt m1) t z 0 (mg_main m1) = Ok (true, bb)
                     /\ get_recorded y (full_domain w) (full_conf v) t m = access_get (sy_root y) (mg_fmt m1) t 0 bb))
       /\ forall q, ~ shared m q.
Proof.
  intros os ev fl y given criteria cs settings files edds docs x Fo Nm P Cw F Es Ef Fg G. pose proof (proj1 (proj2 Fo)) as Sy.
  unfold tool_main in G. rewrite (criteria_read _ _ Cw) in G. destruct (parse_edds edds) as [[code|ds]| | |] eqn:Ep; cbn [obind] in G; try discriminate.
  destruct (edds_commands ds) as [cmds| | |] eqn:Ec; cbn [obind] in G; try discriminate.
  destruct (edds_read edds docs ds Fg Ep cmds Ec) as [Ev ->].
  assert (Forall (possible (ev_need ev)) (flat_map EddSpec.script docs)) as Ps by (apply Forall_flat; intros d _; apply script_possible).
  assert (Forall (Forall (fun w => tidy w /\ enterable w)) (flat_map EddSpec.script docs)) as Te.
  { clear - Fg. induction Fg as [|f d edds docs [_ [_ H]] Fg IH]; [constructor|]. cbn [flat_map]. apply Forall_app. auto. }
  assert (Forall (Forall tidy) (flat_map EddSpec.script docs)) as Tt by (revert Te; apply Forall_impl; intros c; apply Forall_impl; intros w [H _]; exact H).
  assert (Forall (Forall enterable) (flat_map EddSpec.script docs)) as Tn by (revert Te; apply Forall_impl; intros c; apply Forall_impl; intros w [_ H]; exact H).
  rewrite (tool_text (ev_need ev)) in G by exact Ps. pose proof (imports_ok _ _ Es Ef) as Ik.
  destruct (zero_after os ev fl y given cs _ _ x Fo F P Ik Ps Tt Tn G) as [ks [s [m0 [Gs [H0 [Tu [El Z]]]]]]].
  exists ks, s, m0. split; [exact Gs|]. split.
  - intros ->. destruct settings as [f|]; [|exists [], m0; constructor].
    destruct (settings_imported os ev fl y m0 0 f (flat_map GenSpec.command_line (map as_request (flat_map EddSpec.script docs))) (Es f eq_refl)) as [D|D]; [exact D|].
    destruct El as [g Eg]. exfalso. exact (D g Eg).
  - intros bs m1 A. destruct (Z bs m1 A) as [Zb [m [bs2 [A2 [Z2 [Ex Ns]]]]]]. split; [exact Zb|].
    destruct (imports_tuning _ _ _ _ _ _ _ _ A) as [T1 _]. rewrite Tu in T1. pose proof (all_do_history _ _ _ _ _ _ _ A H0) as H1.
    assert (Forall (fun doc => Forall (shaped KRoot) doc /\ Forall even doc) docs) as Fd.
    { apply Forall_concat_inv in Ev. clear - Fg Ev. induction Fg as [|f d edds docs [Hp _] Fg IH]; [constructor|]. constructor; [split; [exact (parsed_shaped _ _ Hp)|exact (Forall_inv Ev)]|]. apply IH. exact (Forall_inv_tail Ev). }
    destruct (files_built os y _ docs m1 bs2 m Sy Nm H1 T1 Fd Tt A2 Z2) as [[dd [S1 S2]] V].
    exists m, dd. split; [exact Ex|]. split; [exact S1|]. split; [exact S2|]. split; [exact V|exact Ns].
Qed.
