(** Proofs about the domain generator. *)
From Coq Require Import List Arith ZArith Bool Ascii String Lia Permutation.
From Verif Require Import Base BaseProofs TextModel TextSpec TextProofs CriterionModel CriterionSpec TreeModel TreeSpec BlackboardModel BlackboardProofs SyncModel SyncProofs DomainModel DomainSpec DomainsInv MgrModel MgrSpec MgrProofs MgrSkel MgrFlow LoadModel LoadSpec LoadProofs LoadProps
  XmlModel XmlSpec DomXmlModel DomXmlSpec DomXmlInv DomXmlRound DomXmlHist DomXmlProps
  RemoteModel RemoteSpec RemoteProofs CommandModel CommandSpec CommandProofs CommandProps ReportModel ReportSpec ReportProofs ReportProofs2 CapiModel CapiSpec CapiProofs PlatModel PlatProofs GenModel GenSpec Demo.
Import ListNotations.
Local Open Scope nat_scope.

(** ** Lines *)

Lemma lines_one : forall l cur r, ~ In newline l -> input_lines cur (l ++ newline :: r) = (cur ++ l) :: input_lines [] r.
Proof.
  induction l as [|c l IH]; intros cur r N; cbn [app input_lines].
  - change (char_eqb newline (ascii_of_nat 10)) with true. cbn. rewrite app_nil_r. reflexivity.
  - assert (char_eqb c (ascii_of_nat 10) = false) as ->.
    { destruct (char_eqb c (ascii_of_nat 10)) eqn:E; auto. apply char_eqb_eq in E. destruct N. left. exact E. }
    rewrite IH; [|intros I; apply N; right; auto]. rewrite <- app_assoc. reflexivity.
Qed.

Definition words_of (command : str) (args : list str) : str := command ++ flat_map (fun a => zero :: a) args.

Lemma words_enter : forall command args, enterable command -> Forall enterable args -> ~ In newline (words_of command args).
Proof.
  intros c args [_ C] F I. unfold words_of in I. apply in_app_iff in I. destruct I as [I|I]; [auto|]. apply in_flat_map in I. destruct I as [a [Ia I]].
  rewrite Forall_forall in F. destruct I as [I|I]; [discriminate|]. apply (proj2 (F a Ia)). auto.
Qed.

Lemma line_split : forall command args r, enterable command -> Forall enterable args ->
  input_lines [] (input_line command args ++ r) = words_of command args :: input_lines [] r.
Proof.
  intros c args r C F. unfold input_line. replace ((c ++ flat_map (fun a => zero :: a) args ++ [newline]) ++ r) with (words_of c args ++ newline :: r).
  - rewrite lines_one; [reflexivity|]. apply words_enter; auto.
  - unfold words_of. rewrite <- !app_assoc. reflexivity.
Qed.

Lemma join_words_of : forall args c, join [zero] (c :: args) = words_of c args.
Proof.
  intros args c. unfold join, words_of. revert c. induction args as [|a args IH]; intros c; cbn [fold_left flat_map].
  - rewrite app_nil_r. reflexivity.
  - rewrite IH. rewrite <- !app_assoc. reflexivity.
Qed.

Lemma words_split : forall c args, c <> [] -> enterable c -> Forall enterable args -> split (words_of c args) [zero] false = c :: args.
Proof.
  intros c args N [C _] F. rewrite <- join_words_of. apply split_join_nomerge; [left; auto|discriminate| |].
  - intros E. inversion E. auto.
  - constructor; [intros x I [<-|[]]; auto|]. eapply Forall_impl; [|exact F]. intros a [A _] x I [<-|[]]; auto.
Qed.

Lemma g_lines_app : forall os ev fl l1 l2 g, g_lines os ev fl (l1 ++ l2) g = do z <- g_lines os ev fl l1 g; match z with Some g' => g_lines os ev fl l2 g' | None => Ok None end.
Proof.
  intros os ev fl l1 l2. induction l1 as [|l l1 IH]; intros g; cbn [app g_lines obind]; auto.
  destruct (g_line os ev fl l g) as [[g'|]| | |]; cbn [obind]; auto.
Qed.

(** ** The criteria *)

Lemma crit_enter : forall c, crit_ok c -> Forall enterable (crit_words c).
Proof.
  intros c [_ [_ [_ F]]]. unfold crit_words. constructor; [|exact F]. destruct (gc_incl c); split; intros I; vm_compute in I; repeat (destruct I as [I|I]; [discriminate I|]); destruct I.
Qed.
Lemma create_enter : enterable (lit "createSelectionCriterion").
Proof. split; intros I; vm_compute in I; repeat (destruct I as [I|I]; [discriminate I|]); destruct I. Qed.
Lemma start_enter : enterable (lit "start").
Proof. split; intros I; vm_compute in I; repeat (destruct I as [I|I]; [discriminate I|]); destruct I. Qed.

Definition add_crits (g : gen) (ks : list criterion) : gen := Gen (gn_sys g) (with_crits (gn_mgr g) (mg_crits (gn_mgr g) ++ ks)) (gn_loaded g) (gn_errors g).

Lemma g_criterion_made : forall c g, crit_ok c ->
  exists k, g_criterion (crit_words c) g = Ok (Some (add_crits g [k])) /\ described (as_c c) k /\ cr_state k = 0%Z /\ NoDup (map fst (cty_map (cr_type k))).
Proof.
  intros c g [M [V [L _]]]. destruct c as [incl n vs]. cbn [gc_incl gc_name gc_values as_c] in *.
  pose proof (described_new (as_c (GCrit incl n vs)) n vs eq_refl eq_refl L) as D. cbn [cc_incl as_c gc_incl gc_name gc_values] in D.
  assert (incl = true -> List.length vs <= 31) as L31.
  { intros ->. destruct M as [n0 [vs0 [_ [E2 [_ H]]]]]. cbn [as_c cc_values gc_values cc_incl gc_incl] in *. inversion E2; subst. apply (H eq_refl). }
  pose proof (add_states_values incl vs 0 (cty_new incl) ltac:(lia) ltac:(intros E; specialize (L31 E); lia)) as A.
  destruct vs as [|v vs]; [destruct V; reflexivity|]. unfold crit_words, g_criterion. cbn [gc_incl gc_name gc_values].
  assert (str_eqb (lit (if incl then "inclusive" else "exclusive")) (lit "inclusive") = incl) as -> by (destruct incl; reflexivity). cbv zeta.
  destruct (add_states incl 0 (v :: vs) (cty_new incl)) as [[t|e]| | |]; try (rewrite A in D; try contradiction); try contradiction; cbn [obind].
  destruct D as [D1 [D2 _]]. exists (cr_new n t). split; [reflexivity|]. split; [exact D1|]. split; [reflexivity|exact D2].
Qed.

Lemma crit_lines_made : forall os ev fl cs g r, Forall crit_ok cs ->
  exists ks, g_lines os ev fl (input_lines [] (flat_map crit_line cs ++ r)) g = g_lines os ev fl (input_lines [] r) (add_crits g ks)
    /\ Forall2 described (map as_c cs) ks /\ (forall k, In k ks -> cr_state k = 0%Z) /\ crits_ok ks.
Proof.
  intros os ev fl cs. induction cs as [|c cs IH]; intros g r F.
  - exists []. split; [|split; [constructor|split; [intros k []|intros i k H; destruct i; discriminate]]]. cbn [flat_map app]. f_equal. unfold add_crits. rewrite app_nil_r. destruct g as [y m l e]. destruct m. reflexivity.
  - inversion F as [|? ? Fc Fr]; subst. destruct (g_criterion_made c g Fc) as [k [Ek [D [Z N]]]].
    destruct (IH (add_crits g [k]) r Fr) as [ks [E [Ds [Zs Ns]]]]. exists (k :: ks). split; [|split; [constructor; auto|split]].
    + cbn [flat_map]. rewrite <- app_assoc. unfold crit_line at 1. rewrite line_split; [|apply create_enter|apply crit_enter; auto]. cbn [g_lines].
      unfold g_line. rewrite words_split; [|discriminate|apply create_enter|apply crit_enter; auto].
      rewrite str_eqb_refl, Ek. cbn [obind]. rewrite E. f_equal. unfold add_crits. cbn [gn_sys gn_mgr gn_loaded gn_errors mg_crits with_crits]. rewrite <- app_assoc. reflexivity.
    + intros k' [<-|I]; auto.
    + intros i k' H. destruct i as [|i]; cbn in H; [inversion H; subst; auto|apply (Ns i); auto].
Qed.

(** ** The start *)

Lemma import_all_shaped : forall y cs x s, system_ok y -> crits_ok cs -> domains_ok y s -> domains_shaped x -> exists b s', import_all y cs true x s = Ok (b, s').
Proof.
  intros y cs x s Sy C K [Tx Sx]. destruct (import_all_ok y cs true x s _ (proj1 Sy) (proj2 Sy) C K eq_refl) as [Q|[b [s' [Q _]]]]; [|eauto].
  exfalso. unfold import_all in Q. destruct (domains_root y x); [|discriminate].
  destruct (no_domains_fine y cs s K) as [F0 _]. pose proof (domains_shaped_not_UB y cs true (proj1 Sy) (proj2 Sy) C (x_elems x) _ F0 Sx) as U.
  destruct (domains_from_xml y cs true (x_elems x) (ds_delete_all s)) as [[b s']| | |]; cbn [obind fst snd] in Q; try discriminate; [destruct b; discriminate|contradiction].
Qed.

Lemma settings_ok : forall y cs doc, system_ok y -> crits_ok cs -> (forall x, doc = Some x -> domains_shaped x) ->
  exists s, g_settings y cs doc = Ok s /\ settings_file y cs doc s.
Proof.
  intros y cs doc Sy C Sx. destruct doc as [x|]; cbn [g_settings settings_file].
  - destruct (import_all_shaped y cs x (Domains [] [] 0) Sy C (no_domains_ok y) (Sx x eq_refl)) as [b [s E]]. exists s. rewrite E. split; [reflexivity|]. exists b. reflexivity.
  - exists (Domains [] [] 0). auto.
Qed.

Lemma load_flags : forall y al cs s bb m, load y al cs s bb = Ok m -> mg_tuning m = false /\ mg_allowed m = al.
Proof.
  intros y al cs s bb m H. unfold load in H. destruct (ds_validate y bb s) as [s1| | |]; try discriminate. cbn [obind] in H.
  unfold do_apply in H. destruct (ds_apply _ _ _ _ _ _ _) as [[[s2 bb2] tr]| | |]; try discriminate. cbn [obind] in H. inversion H; subst. auto.
Qed.

Lemma start_made : forall fl y given g, files_ok y given fl -> gn_loaded g = false -> crits_ok (mg_crits (gn_mgr g)) ->
  exists s m m0, g_start fl g = Ok (Some (Gen y m0 true (gn_errors g))) /\ settings_file y (mg_crits (gn_mgr g)) (gf_settings fl) s
    /\ start_up y given true (mg_crits (gn_mgr g)) s = Ok m /\ step y m (CTuning true []) = Ok (true, m0) /\ history y m0 /\ mg_tuning m0 = true.
Proof.
  intros fl y given g [Fs [Sy [Ao Sx]]] Ld C. set (ks := mg_crits (gn_mgr g)) in *.
  destruct (settings_ok y ks (gf_settings fl) Sy C Sx) as [s [Eg Es]].
  assert (List.length (initial_blackboard (sy_root y)) = footprint (sy_root y)) as L0.
  { unfold initial_blackboard. apply bb_set_size_length. }
  destruct (file_loadable y ks (gf_settings fl) s _ Sy C L0 Es) as [Lo R].
  destruct (start_up_inv y given true ks s Sy Ao Lo) as [bb [m [_ [Lo2 [El Eu]]]]].
  destruct (load_flags y true ks s bb m El) as [Tm Am].
  assert (step y m (CTuning true []) = Ok (true, with_tuning m true)) as Et.
  { cbn [step]. unfold set_tuning. rewrite Tm, Am. reflexivity. }
  exists s, m, (with_tuning m true). split; [|split; [exact Es|split; [exact Eu|split; [exact Et|split]]]].
  - unfold g_start. rewrite Ld, Fs. fold ks. rewrite Eg. cbn [obind]. rewrite Eu. cbn [obind].
    change (set_tuning y true [] m) with (step y m (CTuning true [])). rewrite Et. reflexivity.
  - eapply hi_step; [|exact Et]. apply (hi_start y true ks (gf_settings fl) s bb m C (proj2 (proj2 (proj2 Lo2))) Es El).
  - destruct m; reflexivity.
Qed.

(** ** The commands *)

Lemma make_request_trim : forall args command, make_request command args = Request command (map trim args).
Proof.
  intros args command. unfold make_request. assert (forall l, fold_left add_argument args (Request command l) = Request command (l ++ map trim args)) as H.
  { induction args as [|a args IH]; intros l; cbn [fold_left map]; [rewrite app_nil_r; auto|]. unfold add_argument at 2. cbn [rq_command rq_args]. rewrite IH. rewrite <- app_assoc. reflexivity. }
  rewrite H. reflexivity.
Qed.

Lemma trim_all : forall args args', Forall2 trimmed args args' -> map trim args = args'.
Proof. intros args args' F. induction F as [|a a' l l' H F IH]; cbn [map]; auto. rewrite IH. f_equal. apply (trimmed_unique a); auto. apply trim_spec. Qed.

Lemma does_processed : forall os y ev m name args b m', does os y (ev_need ev) m name args b m' ->
  exists t, process y (reporting os y ev) m (Request (lit name) args) = Ok (Answer t b, m').
Proof.
  intros os y ev m name args b m' [c b' m1 M St|text ws file b' m1 I E|text over ws file b' m1 I E V|N _|n H L Sn].
  - destruct (C46_effect y (reporting os y ev) m name args c b' m1 M St) as [t [E _]]. eauto.
  - destruct (imported y (reporting os y ev) m name args _ b' m1 I E) as [t [E' _]]. eauto.
  - destruct (imported y (reporting os y ev) m name args _ b' m1 I E) as [t [E' _]]. eauto.
  - rewrite C46_unknown; eauto.
  - destruct (C46_too_few_partial y (reporting os y ev) m (lit name) args n H L) as [h E]; [intros Q; apply lit_inj in Q; auto|eauto].
Qed.

Lemma not_special : forall name args os y need m b m', does os y need m name args b m' ->
  str_eqb (lit name) (lit "createSelectionCriterion") = false /\ str_eqb (lit name) (lit "start") = false.
Proof.
  intros name args os y need m b m' D.
  assert (name <> "createSelectionCriterion"%string /\ name <> "start"%string) as [N1 N2].
  { destruct D as [c b' m1 M St|text ws file b' m1 I E|text over ws file b' m1 I E V|N H|n H L Sn].
    - inversion M; subst; split; discriminate.
    - inversion I; subst; split; discriminate.
    - inversion I; subst; split; discriminate.
    - split; intros ->; apply H; cbn; auto.
    - split; intros ->; do 5 (destruct n as [|n]; [vm_compute in H; repeat (destruct H as [H|H]; [discriminate H|]); destruct H|]); destruct H. }
  split; apply Bool.not_true_iff_false; intros E; apply str_eqb_eq in E; apply lit_inj in E; auto.
Qed.

Lemma does_history : forall os y need m name args b m', history y m -> does os y need m name args b m' -> history y m'.
Proof.
  intros os y need m name args b m' H [c b' m1 M St|text ws file b' m1 I E|text over ws file b' m1 I E V|N _|n _ L Sn]; auto.
  - eapply hi_step; eauto.
  - eapply hi_import; eauto.
  - eapply hi_import_one; eauto.
Qed.

Lemma all_do_history : forall os y need m rs bs m', all_do os y need m rs bs m' -> history y m -> history y m'.
Proof. intros os y need m rs bs m' A. induction A as [m|m name args args' r b m1 bs m2 T D A IH]; intros H; auto. apply IH. eapply does_history; eauto. Qed.

Lemma commands_made : forall os ev fl y rs m bs m' k, all_do os y (ev_need ev) m rs bs m' -> Forall command_ok rs ->
  g_lines os ev fl (input_lines [] (flat_map command_line rs)) (Gen y m true k) = Ok (Some (Gen y m' true (k + failures bs))).
Proof.
  intros os ev fl y rs m bs m' k A. revert k. induction A as [m|m name args args' r b m1 bs m2 T D A IH]; intros k F.
  - cbn [flat_map input_lines g_lines]. unfold g_line. change (split [] [zero] false) with (@nil str). cbn [obind]. unfold failures. cbn. rewrite Nat.add_0_r. reflexivity.
  - inversion F as [|? ? [N [C Ca]] Fr]; subst. cbn [fst snd] in N, C, Ca. cbn [flat_map]. unfold command_line at 1. cbn [fst snd]. rewrite line_split; auto. cbn [g_lines].
    unfold g_line. rewrite words_split; auto. destruct (not_special name args' os y (ev_need ev) m b m1 D) as [-> ->]. cbn [gn_sys gn_mgr gn_loaded gn_errors].
    rewrite make_request_trim, (trim_all _ _ T). destruct (does_processed os y ev m name args' b m1 D) as [t E]. rewrite E. cbn [obind fst snd an_ok].
    rewrite IH; auto. f_equal. f_equal. f_equal. unfold failures. cbn [filter]. destruct b; cbn [negb List.length]; lia.
Qed.

Lemma conflicts_told : forall os ev y m k, domains_ok y (mg_doms m) -> (forall l, Permutation (os_order os l) l) ->
  exists b, g_conflicts os ev (Gen y m true k) = Ok (Some b) /\ (b = true <-> exists q, shared m q).
Proof.
  intros os ev y m k K P. destruct (list_conflicting os y ev m [] K P) as [t [ps [ls [A [Tl [_ [_ [Sh F]]]]]]]].
  exists (negb (List.length t =? 0)). unfold g_conflicts. cbn [gn_sys gn_mgr]. unfold answers in A. rewrite A. cbn [obind fst snd an_ok an_text]. split; [reflexivity|].
  split.
  - intros H. destruct t as [|c t]; [discriminate|]. destruct ps as [|p ps]; inversion F; subst; [inversion Tl|]. exists p. apply Sh. exists p. split; [left; auto|exists []; rewrite app_nil_r; reflexivity].
  - intros [q Hq]. apply Sh in Hq. destruct Hq as [p [I _]]. inversion F as [|p0 l ps0 ls0 Hl Fr]; subst; [destruct I|]. inversion Tl as [|l0 ls1 t0 T0]; subst. rewrite app_length. cbn [List.length].
    destruct (_ =? 0) eqn:Z; auto. apply Nat.eqb_eq in Z. lia.
Qed.

(** ** The whole *)

Lemma lines_cat : forall a b cur, input_lines cur (a ++ newline :: b) = input_lines cur a ++ input_lines [] b.
Proof.
  induction a as [|c a IH]; intros b cur; cbn [app input_lines].
  - change (char_eqb newline (ascii_of_nat 10)) with true. reflexivity.
  - destruct (char_eqb c (ascii_of_nat 10)); [cbn [app]; rewrite IH; reflexivity|apply IH].
Qed.

Lemma blank_line : forall os ev fl g, g_line os ev fl [] g = Ok (Some g).
Proof. reflexivity. Qed.

Lemma criteria_started : forall os ev fl y given cs r, files_ok y given fl -> Forall crit_ok cs ->
  exists ks s m0, generator_start y given fl cs ks s m0 /\ history y m0 /\ mg_tuning m0 = true
    /\ g_lines os ev fl (input_lines [] (flat_map crit_line cs ++ input_line (lit "start") [] ++ r)) g_new = g_lines os ev fl (input_lines [] r) (Gen y m0 true 0).
Proof.
  intros os ev fl y given cs r Fo F. destruct (crit_lines_made os ev fl cs g_new (input_line (lit "start") [] ++ r) F) as [ks [E [D [Z C]]]].
  assert (mg_crits (gn_mgr (add_crits g_new ks)) = ks) as Ck by reflexivity.
  destruct (start_made fl y given (add_crits g_new ks) Fo eq_refl ltac:(rewrite Ck; exact C)) as [s [m [m0 [Eg [Es [Eu [Et [H T]]]]]]]]. rewrite Ck in Es, Eu.
  exists ks, s, m0. split; [split; [exact D|split; [exact Z|split; [exact Es|exists m; auto]]]|]. split; [exact H|]. split; [exact T|].
  rewrite E. rewrite line_split; [|apply start_enter|constructor]. cbn [g_lines]. unfold g_line.
  rewrite words_split; [|discriminate|apply start_enter|constructor]. change (str_eqb (lit "start") (lit "createSelectionCriterion")) with false. change (str_eqb (lit "start") (lit "start")) with true.
  cbn [gn_errors] in Eg. rewrite Eg. reflexivity.
Qed.

Lemma main_ends : forall os ev fl y m k input x, history y m -> system_ok y -> (forall l, Permutation (os_order os l) l) ->
  g_lines os ev fl (input_lines [] input) g_new = Ok (Some (Gen y m true k)) -> export_domains y true m = Ok x ->
  exists code, g_main os ev fl input = Ok (code, Some x)
    /\ ((exists q, shared m q) /\ code = Nat.min 255 (k + 1) \/ (forall q, ~ shared m q) /\ code = Nat.min 255 k).
Proof.
  intros os ev fl y m k input x H Sy P E Ex. destruct (history_sound y m Sy H) as [[K _] _]. destruct (conflicts_told os ev y m k K P) as [b [Ec Eb]].
  unfold g_main. rewrite E. cbn [obind]. rewrite Ec. cbn [obind gn_sys gn_mgr gn_errors]. rewrite Ex. eexists. split; [reflexivity|]. destruct b.
  - left. split; [apply Eb; reflexivity|]. lia.
  - right. split; [intros q Q; assert (false = true) by (apply Eb; exists q; auto); discriminate|]. lia.
Qed.
