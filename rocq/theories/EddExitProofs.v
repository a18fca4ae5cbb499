(** Proofs: the domain generator on the commands of an EDD file. *)
From Coq Require Import List Arith ZArith Bool Ascii String Lia Permutation.
From Verif Require Import Base BaseProofs TextModel ParamTypeModel CriterionModel CriterionSpec TreeModel TreeSpec BlackboardModel BlackboardProofs SyncModel DomainModel DomainSpec DomainsInv MgrModel MgrSpec MgrProofs MgrSkel LoadModel LoadSpec LoadProofs LoadProps RuleModel DomainApply ApplySpec ApplyProofs Demo
  XmlModel XmlSpec DomXmlModel DomXmlSpec DomXmlInv DomXmlRound DomXmlHist DomXmlProps CatSpec RemoteModel RemoteSpec RemoteProofs CommandModel CommandSpec CommandProps ReportModel ReportSpec GenModel GenSpec GenProofs EddModel EddSpec EddRunSpec EddRunProofs.
Import ListNotations.
Local Open Scope nat_scope.

(** A request of a script is a command, or has not enough arguments. *)
Definition possible (need : list nat) (c : EddModel.command) : Prop :=
  exists s args, c = lit s :: args /\ ((exists k, means need s args k) \/ exists n, mandatory (lit s) n /\ List.length args < n /\ s <> "setSequenceAwareness"%string).

Ltac can := eexists; eexists; split; [reflexivity|]; left; eexists; constructor; try constructor.

Lemma Forall_flat : forall (A B : Type) (P : B -> Prop) (f : A -> list B) l, (forall x, In x l -> Forall P (f x)) -> Forall P (flat_map f l).
Proof. intros A B P f l H. apply Forall_forall. intros b I. apply in_flat_map in I. destruct I as [a [Ia Ib]]. pose proof (H a Ia) as F. rewrite Forall_forall in F. auto. Qed.

Lemma Forall_maps : forall (A B : Type) (P : B -> Prop) (f : A -> B) l, (forall x, P (f x)) -> Forall P (map f l).
Proof. intros A B P f l H. induction l; cbn [map]; constructor; auto. Qed.

Lemma conf_possible : forall need w v, Forall (possible need) (conf_script (full_domain w) (is_aware w) v).
Proof.
  intros need w v. unfold conf_script. constructor; [can|]. constructor; [can|]. apply Forall_app. split.
  - destruct (is_aware w); constructor; [|constructor]. eexists. eexists. split; [reflexivity|]. destruct (elements [] (target v)) as [|p l].
    + right. exists 3. split; [|split; [cbn; lia|discriminate]]. apply in_map. cbn. tauto.
    + left. eexists. constructor.
  - apply Forall_maps. intros s. can.
Qed.

Lemma script_possible : forall need doc, Forall (possible need) (EddSpec.script doc).
Proof.
  intros need doc. unfold EddSpec.script. apply Forall_flat. intros w _. unfold domain_script. constructor; [can|]. apply Forall_app. split.
  - destruct (is_aware w); constructor; [|constructor]. can.
  - apply Forall_app. split; [apply Forall_maps; intros s; can|]. apply Forall_flat. intros v _. apply conf_possible.
Qed.

Lemma tidy_self : forall l, Forall tidy l -> Forall2 RemoteSpec.trimmed l l.
Proof. intros l F. induction F; constructor; auto. Qed.

(** What a script does: it is carried out to its end, or the generator aborts. *)
Lemma run_or_abort : forall os ev fl y cmds m k, system_ok y -> history y m -> Forall (possible (ev_need ev)) cmds -> Forall (Forall tidy) cmds -> Forall command_ok (map as_request cmds) ->
  (exists bs m', all_do os y (ev_need ev) m (map as_request cmds) bs m')
  \/ g_lines os ev fl (input_lines [] (flat_map GenSpec.command_line (map as_request cmds))) (Gen y m true k) = Abort.
Proof.
  intros os ev fl y cmds m k Sy Hh F. revert m k Hh. induction F as [|c cmds [s [args [-> Hc]]] F IH]; intros m k Hh T Ck.
  - left. exists [], m. constructor.
  - cbn [map] in Ck |- *. rewrite req_name in Ck |- *. pose proof (Forall_inv T) as T1. apply Forall_inv_tail in T1. apply Forall_inv_tail in T. pose proof (Forall_inv Ck) as C1. apply Forall_inv_tail in Ck.
    assert (D : (exists b m1, does os y (ev_need ev) m s args b m1) \/ (exists d n t, means (ev_need ev) s args (CSetRule d n t) /\ step y m (CSetRule d n t) = Abort)).
    { destruct Hc as [[c M]|[n [Hn [Ln Ns]]]]; [|left; exists false, m; eapply do_missing; eauto]. destruct (history_sound y m Sy Hh) as [Mk _].
      destruct (step_ok y m c Sy Mk) as [[b [m1 [E _]]]|[E [d [n [t ->]]]]]; [left; exists b, m1; econstructor; eauto|right; eauto]. }
    destruct D as [[b [m1 D]]|[d [n [t [M E]]]]].
    + destruct (IH m1 (k + failures [b]) (does_history _ _ _ _ _ _ _ _ Hh D) T Ck) as [[bs [m2 A]]|Ab].
      * left. exists (b :: bs), m2. econstructor; [apply tidy_self; exact T1|exact D|exact A].
      * right. destruct C1 as [N [C Ca]]. cbn [fst snd] in N, C, Ca. cbn [flat_map]. unfold GenSpec.command_line at 1. cbn [fst snd]. rewrite line_split; auto. cbn [g_lines].
        unfold g_line. rewrite words_split; auto. destruct (not_special _ _ _ _ _ _ _ _ D) as [-> ->]. cbn [gn_sys gn_mgr gn_loaded gn_errors].
        rewrite make_request_trim, (trim_all _ _ (tidy_self _ T1)). destruct (does_processed os y ev m s args b m1 D) as [t E]. rewrite E. cbn [obind fst snd an_ok].
        rewrite <- Ab. f_equal. f_equal. unfold failures. cbn [filter]. destruct b; cbn [negb List.length]; lia.
    + right. destruct C1 as [N [C Ca]]. cbn [fst snd] in N, C, Ca. cbn [flat_map]. unfold GenSpec.command_line at 1. cbn [fst snd]. rewrite line_split; auto. cbn [g_lines].
      unfold g_line. rewrite words_split; auto. assert (s = "setRule"%string) as -> by (inversion M; reflexivity).
      change (str_eqb (lit "setRule") (lit "createSelectionCriterion")) with false. change (str_eqb (lit "setRule") (lit "start")) with false. cbn [gn_sys gn_mgr gn_loaded gn_errors].
      rewrite make_request_trim, (trim_all _ _ (tidy_self _ T1)). destruct (means_plan _ _ _ _ M) as [e [Fe [Le [Pe [Ne _]]]]]. unfold process. cbn [rq_command rq_args]. rewrite Fe.
      rewrite (proj2 (str_eqb_neq _ _) Ne). replace (List.length args <? en_min e) with false by (symmetry; apply Nat.ltb_ge; auto). cbn [reporting ev_need].
      change (ev_need (reporting os y ev)) with (ev_need ev). rewrite Pe. cbn [obind execute]. unfold done. rewrite E. reflexivity.
Qed.

Lemma script_commands_ok : forall need cmds, Forall (possible need) cmds -> Forall (Forall enterable) cmds -> Forall command_ok (map as_request cmds).
Proof.
  intros need cmds F E. induction F as [|c cmds [s [args [-> Hc]]] F IH]; cbn [map]; constructor; [|apply IH; exact (Forall_inv_tail E)].
  rewrite req_name. pose proof (Forall_inv E) as E1. split; [|split; [exact (Forall_inv E1)|exact (Forall_inv_tail E1)]]. cbn [fst].
  destruct Hc as [[k M]|[n [Hn _]]].
  - inversion M; subst; discriminate.
  - intros Z. rewrite Z in Hn. unfold mandatory in Hn. do 5 (destruct n as [|n]; [vm_compute in Hn; repeat (destruct Hn as [Hn|Hn]; [discriminate Hn|]); destruct Hn|]); destruct Hn.
Qed.

(** The code 0: all the commands were carried out with success, and no element is in two domains. *)
Lemma zero_exit : forall os ev fl y given cs cmds x, files_ok y given fl -> Forall crit_ok cs -> (forall l, Permutation (os_order os l) l) ->
  Forall (possible (ev_need ev)) cmds -> Forall (Forall tidy) cmds -> Forall (Forall enterable) cmds ->
  g_main os ev fl (GenSpec.script cs (map as_request cmds)) = Ok (0, Some x) ->
  exists ks s m0 m bs, generator_start y given fl cs ks s m0 /\ history y m0 /\ mg_tuning m0 = true
    /\ all_do os y (ev_need ev) m0 (map as_request cmds) bs m /\ failures bs = 0
    /\ export_domains y true m = Ok x /\ forall q, ~ shared m q.
Proof.
  intros os ev fl y given cs cmds x Fo F P Ps T En G. pose proof (proj1 (proj2 Fo)) as Sy. pose proof (script_commands_ok _ _ Ps En) as Ck.
  destruct (criteria_started os ev fl y given cs (flat_map GenSpec.command_line (map as_request cmds)) Fo F) as [ks [s [m0 [Gs [H [Tu E]]]]]].
  destruct (run_or_abort os ev fl y cmds m0 0 Sy H Ps T Ck) as [[bs [m A]]|Ab].
  - rewrite (commands_made os ev fl y _ m0 bs m 0 A Ck) in E. cbn [Nat.add] in E. pose proof (all_do_history _ _ _ _ _ _ _ A H) as Hm.
    assert (exists x', export_domains y true m = Ok x') as [x' Ex].
    { destruct (export_domains y true m) as [x'| | |] eqn:Ex; eauto; exfalso; unfold g_main in G; fold (GenSpec.script cs (map as_request cmds)) in E; rewrite E in G; cbn [obind] in G;
        destruct (history_sound y m Sy Hm) as [[K _] _]; destruct (conflicts_told os ev y m (failures bs) K P) as [b [Ec _]]; rewrite Ec in G; cbn [obind gn_sys gn_mgr] in G; rewrite Ex in G; discriminate. }
    destruct (main_ends os ev fl y m (failures bs) _ x' Hm Sy P E Ex) as [code [Em Ec]]. fold (GenSpec.script cs (map as_request cmds)) in Em. rewrite Em in G. injection G as -> ->.
    exists ks, s, m0, m, bs. split; [exact Gs|]. split; [exact H|]. split; [exact Tu|]. split; [exact A|].
    destruct Ec as [[_ Z]|[N Z]]; [lia|]. split; [lia|]. split; [exact Ex|exact N].
  - exfalso. unfold g_main in G. unfold GenSpec.script in G. rewrite E, Ab in G. discriminate.
Qed.

(** The document of a state as the settings file of another start. *)
Lemma document_back : forall y m x, system_ok y -> names_ok (sy_root y) -> history y m -> distinguishable (mg_crits m) -> (forall d, In d (ds_list (mg_doms m)) -> exportable y (mg_crits m) (mg_fmt m) d) ->
  export_domains y true m = Ok x ->
  forall x' allowed cs2 bb, like x x' -> same_criteria (mg_crits m) cs2 -> crits_ok cs2 -> List.length bb = footprint (sy_root y) ->
    exists s2 m2, import_all y cs2 true x' (Domains [] [] 0) = Ok (true, s2) /\ load y allowed cs2 s2 bb = Ok m2 /\ history y m2 /\ same_domains y (mg_doms m) (mg_doms m2).
Proof.
  intros y m x Sy Nm Hm D Ex Ee x' al cs2 bb Lk Sc C2 Lb. destruct (history_sound y m Sy Hm) as [[K [V L]] [R C]].
  destruct (import_all_back y cs2 (mg_fmt m) true (mg_doms m) (proj1 Sy) (proj2 Sy) Nm (distinguishable_same _ _ Sc D) K) as [x2 [Ee2 B]].
  { intros d Hd. apply (exportable_same y (mg_crits m)); auto. apply exportable_any. auto. }
  assert (x2 = x) as ->. { unfold export_domains in Ee. rewrite (domains_to_same y _ _ _ _ _ Sc) in Ee. congruence. }
  destruct (B x' true (Domains [] [] 0) Lk (no_domains_ok y)) as [s2 [Ei [Fi Br]]]. cbn [andb] in Br.
  destruct (file_loadable y cs2 (Some x') s2 bb Sy C2 Lb (ex_intro _ true Ei)) as [Lo2 R2]. destruct (load_ok y al cs2 s2 bb Sy Lo2) as [m2 [s3 [E1 [Ev [Ea [M0 _]]]]]].
  exists s2, m2. split; [exact Ei|]. split; [exact E1|]. split; [exact (hi_start y al cs2 (Some x') s2 bb m2 C2 Lb (ex_intro _ true Ei) E1)|].
  pose proof (kept_full y bb _ _ (validated_brought y bb true _ s2 s3 (proj1 Sy) (proj1 Fi) Lb Br Ev)) as Q.
  destruct (do_apply_inv y true [] _ m2 (proj1 Sy) M0 Ea) as [Ed _]. unfold same_domains. rewrite Ed. cbn [ds_list mg_crits mg_doms].
  clear -Q. induction Q as [|d d' l l' H Q IH]; cbn [map]; constructor; [|exact IH].
  destruct H as [H1 [H2 [H3 H4]]]. unfold applied. destruct (dm_applicable cs2 d'); (split; [exact H1|split; [exact H2|split; [exact H3|exact H4]]]).
Qed.
