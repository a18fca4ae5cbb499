(** C70: what the listing, status, dump and document commands answer. *)
From Coq Require Import List Arith ZArith Bool Ascii String Sorted Permutation Lia.
From Verif Require Import Base BaseProofs TextModel TextSpec TextProofs ParamTypeModel BitModel BlackboardModel BlackboardProofs TreeModel TreeSpec TreeProofs CriterionModel RuleModel SyncModel
  DomainModel DomainSpec DomainProofs MgrModel MgrSpec MgrProofs MgrSkel MgrProps ApplySpec ApplyProofs ApplyMore ApplyProps ConfigProofs2 ConfigProps ValueSpec ValueProofs ReadProofs MemSpec XmlModel XmlSpec XmlProps DomXmlModel
  DomXmlSpec DomXmlInv DomXmlRound DomXmlHist DomXmlProps XmlDemo StrucModel DeclProofs Demo RemoteModel CommandModel CommandSpec CommandProofs CommandProps QueryProps CapiModel CapiSpec CapiProofs ReportModel ReportSpec ReportProofs ReportProofs2.
Import ListNotations.
Local Open Scope nat_scope.

(** In the examples: nothing outside, and the answer as lines. *)
Definition plain : outside := Outside (fun l => l) (Details (fun _ => []) (fun _ => lit "of a type") (fun _ => lit "dB")) (fun _ _ => None) (fun _ => []).
Fixpoint cut (cur t : str) : list string :=
  match t with
  | [] => match cur with [] => [] | _ => [string_of_list_ascii (rev cur)] end
  | c :: r => if Ascii.eqb c newline then string_of_list_ascii (rev cur) :: cut [] r else cut (c :: cur) r
  end.
Definition shows (y : system) (m : mgr) (name : string) (args : list string) : option (list string) :=
  match process y (reporting plain y silent) m (Request (lit name) (map lit args)) with Ok (Answer t true, _) => Some (cut [] t) | _ => None end.

(** ** Elements *)

(** listElements: the element and its children, in their order, each with its kind; no argument after the path matters. *)
Theorem C70_list_elements : forall os y ev m a args p e, designates (sy_root y) a p -> elem_at (sy_root y) p = Some e ->
  exists t ls, answers y (reporting os y ev) m "listElements" (a :: args) t /\ text_lines ls t
    /\ Forall2 (qualified (sy_root y)) (p :: map (fun i => p ++ [i]) (seq 0 (List.length (e_children e)))) ls.
Proof. exact list_elements. Qed.
Print Assumptions C70_list_elements.

(** listParameters: the elements below without children, in the order of the structure: every parameter below is there, once. *)
Theorem C70_list_parameters : forall os y ev m a args p, system_ok y -> designates (sy_root y) a p ->
  exists t ps ls, answers y (reporting os y ev) m "listParameters" (a :: args) t /\ text_lines ls t
    /\ Forall2 (qualified (sy_root y)) ps ls /\ StronglySorted before ps /\ NoDup ps
    /\ (forall q, In q ps <-> above p q /\ exists c, elem_at (sy_root y) q = Some c /\ e_children c = [])
    /\ (forall q c, param_at (sy_root y) q c -> above p q -> In q ps).
Proof.
  intros os y ev m a args p Sy D. destruct (designates_elem y a p D) as [e E]. destruct (list_parameters os y ev m a args p e D E) as [t [ps [ls [A [B [C [F G]]]]]]].
  exists t, ps, ls. split; auto. split; auto. split; auto. split; auto. split; [apply sorted_nodup; auto|]. split; auto.
  intros q c Hq Ab. apply G. split; auto. exists c. split; [apply Hq|apply (param_leaf y q c Sy Hq)].
Qed.
Print Assumptions C70_list_parameters.

(** A listed path designates its element. *)
Theorem C70_listed_path : forall y p line, names_ok (sy_root y) -> qualified (sy_root y) p line ->
  exists path kind, line = path ++ lit " [" ++ kind ++ lit "]" /\ locate (sy_root y) path = Some p.
Proof.
  intros y p line Nm [e [E ->]]. exists (path_in (sy_root y) p), (kind_text (e_kind e)). split; auto. apply locate_path; auto. congruence.
Qed.
Print Assumptions C70_listed_path.

(** A path that designates nothing is refused. *)
Theorem C70_list_unknown : forall os y ev m a args name, In name ["listElements"; "listParameters"]%string -> (forall p, ~ designates (sy_root y) a p) ->
  refuses y (reporting os y ev) m name (a :: args).
Proof. exact list_refused. Qed.
Print Assumptions C70_list_unknown.

Example C70_elements_nonvacuous : designates demo_tree (lit "//") [] /\ designates demo_tree (lit "/Sys/Sub/blk") [0; 0]
  /\ shows demo demo_tuned "listElements" ["/Sys/Sub"]%string
     = Some ["/Sys/Sub [Subsystem]"; "/Sys/Sub/blk [ParameterBlock]"; "/Sys/Sub/bits [BitParameterBlock]"; "/Sys/Sub/str [StringParameter]"]%string
  /\ shows demo demo_tuned "listParameters" ["/"]%string
     = Some ["/Sys/Sub/blk/a [IntegerParameter]"; "/Sys/Sub/blk/arr [BooleanParameter]"; "/Sys/Sub/blk/b [IntegerParameter]"; "/Sys/Sub/bits/low [BitParameter]"; "/Sys/Sub/bits/high [BitParameter]";
             "/Sys/Sub/str [StringParameter]"; "/Sys/Aux/x [IntegerParameter]"]%string
  /\ shows demo demo_tuned "listParameters" ["/Sys/Nope"]%string = None.
Proof.
  split; [right; split; [discriminate|split; [repeat constructor|reflexivity]]|]. split; [left; vm_compute; reflexivity|]. split; [vm_compute; reflexivity|]. split; vm_compute; reflexivity.
Qed.

(** A framework with an integer of 8 bits, and a block without children. *)
Definition odd_system : system :=
  Sys (Elem (lit "Sys") KdSystem [Elem (lit "Sub") KdSubsystem [Elem (lit "v") (KdParam (PInt false 1 0 10)) []; Elem (lit "empty") KdBlock []]])
    (fun p => match p with [0] => Some 1 | _ => None end) (fun _ _ => true).
Definition odd_start : mgr := Mgr (Domains [] [] 0) (initial_blackboard (sy_root odd_system)) false true true false false [] [].

Lemma odd_ok : system_ok odd_system.
Proof.
  split; [split; [vm_compute; reflexivity|apply check_fields_ok; vm_compute; reflexivity]|].
  intros p q s t Hp Hq [r E]. cbn [sy_own odd_system] in *. destruct p as [|[|] [|]]; try discriminate. subst q. destruct r; [auto|discriminate].
Qed.

Lemma odd_reachable : reachable odd_system odd_start.
Proof.
  exists odd_start, [], []. split; [|reflexivity]. exists true, [], (Domains [] [] 0), (initial_blackboard (sy_root odd_system)). split; [|vm_compute; reflexivity].
  split; [intros i k H; destruct i; discriminate|]. split; [apply no_domains_ok|]. split; [intros d c r []|reflexivity].
Qed.

(** "listParameters" lists an element that is not a parameter: a block without children.  (Element.cpp:343-363 stops at the elements
    without children, whatever they are.) *)
Theorem C70_parameters_only_refuted : exists y os ev m t line ls q, system_ok y /\ reachable y m /\ answers y (reporting os y ev) m "listParameters" [lit "/"] t /\ text_lines ls t
  /\ In line ls /\ qualified (sy_root y) q line /\ forall e, ~ param_at (sy_root y) q e.
Proof.
  exists odd_system, plain, silent, odd_start. eexists. exists (lit "/Sys/Sub/empty [ParameterBlock]"), [lit "/Sys/Sub/v [IntegerParameter]"; lit "/Sys/Sub/empty [ParameterBlock]"], [0; 1].
  split; [exact odd_ok|]. split; [exact odd_reachable|]. split; [vm_compute; reflexivity|]. split; [exact (tl_line (lit "/Sys/Sub/v [IntegerParameter]") _ _ (tl_line (lit "/Sys/Sub/empty [ParameterBlock]") _ _ tl_none))|].
  split; [right; left; reflexivity|]. split; [eexists; split; [vm_compute; reflexivity|reflexivity]|]. intros e [E P]. vm_compute in E. injection E as <-. discriminate P.
Qed.
Print Assumptions C70_parameters_only_refuted.

(** ** Domains of the elements *)

(** listAssociatedDomains: the domains that have the element; listBelongingDomains: those that have it or an element above it; each
    once. *)
Theorem C70_domains_of_element : forall os y ev m a args p, system_ok y -> reachable y m -> locate (sy_root y) a = Some p ->
  (exists t ds, answers y (reporting os y ev) m "listAssociatedDomains" (a :: args) t /\ text_lines (map dm_name ds) t /\ exactly m (fun d => In p (dm_elems d)) ds)
  /\ (exists t ds, answers y (reporting os y ev) m "listBelongingDomains" (a :: args) t /\ text_lines (map dm_name ds) t /\ exactly m (fun d => covers d p) ds).
Proof. intros os y ev m a args p Sy R L. destruct (reachable_ok y m Sy R) as [[K _] _]. apply list_domains_of; auto. Qed.
Print Assumptions C70_domains_of_element.

(** listAssociatedElements: the elements of the domains, each once, with the names of its domains. *)
Theorem C70_associated_elements : forall os y ev m args, system_ok y -> reachable y m -> (forall l, Permutation (os_order os l) l) ->
  exists t ps ls, answers y (reporting os y ev) m "listAssociatedElements" args t /\ text_lines ls t /\ NoDup ps /\ (forall p, In p ps <-> owned m p)
    /\ Forall2 (fun p l => exists ds names, exactly m (fun d => In p (dm_elems d)) ds /\ separated (lit ", ") (map dm_name ds) names
                 /\ l = path_in (sy_root y) p ++ lit " [" ++ names ++ lit "]") ps ls.
Proof. intros os y ev m args Sy R P. destruct (reachable_ok y m Sy R) as [[K _] _]. apply list_associated; auto. Qed.
Print Assumptions C70_associated_elements.

(** listConflictingElements: the elements of the domains that another domain holds too, with all the domains that hold them.  An
    element is held by two domains exactly when it is listed or below a listed one. *)
Theorem C70_conflicting_elements : forall os y ev m args, system_ok y -> reachable y m -> (forall l, Permutation (os_order os l) l) ->
  exists t ps ls, answers y (reporting os y ev) m "listConflictingElements" args t /\ text_lines ls t /\ NoDup ps /\ (forall p, In p ps <-> owned m p /\ shared m p)
    /\ (forall q, shared m q <-> exists p, In p ps /\ above p q)
    /\ Forall2 (fun p l => exists ds names, exactly m (fun d => covers d p) ds /\ separated (lit ", ") (map dm_name ds) names
                 /\ l = path_in (sy_root y) p ++ lit " contained in multiple domains: " ++ names) ps ls.
Proof. intros os y ev m args Sy R P. destruct (reachable_ok y m Sy R) as [[K _] _]. apply list_conflicting; auto. Qed.
Print Assumptions C70_conflicting_elements.

(** listRogueElements: a parameter is in no domain exactly when it is listed or below a listed element; none of them is above
    another, and nothing above a listed element could be listed instead. *)
Theorem C70_rogue_elements : forall os y ev m args, system_ok y -> reachable y m ->
  exists t ps, answers y (reporting os y ev) m "listRogueElements" args t /\ text_lines (map (path_in (sy_root y)) ps) t /\ separate ps
    /\ (forall p, In p ps -> rogue m p /\ forall d q, In d (ds_list (mg_doms m)) -> In q (dm_elems d) -> ~ above p q)
    /\ (forall q e, param_at (sy_root y) q e -> ((exists p, In p ps /\ above p q) <-> rogue m q))
    /\ (forall p p', In p ps -> above p' p -> p' <> p -> ~ (rogue m p' /\ forall d q, In d (ds_list (mg_doms m)) -> In q (dm_elems d) -> ~ above p' q)).
Proof.
  intros os y ev m args Sy R. destruct (C33_listed y m Sy R) as [A [B [C D]]]. eexists. exists (rogue_elements (ds_att (mg_doms m)) (sy_root y) []).
  split; [apply reported0; [cbn [listing In]; tauto|reflexivity]|]. split; [apply lines_text|]. split; auto. split; [|split; auto].
  - intros p Hp. destruct (B p Hp) as [e [E Rg]]. apply (C33_rogue_element y m p e Sy R E). auto.
  - intros p p' Hp Ab Ne H. destruct (elem_at (sy_root y) p') as [e'|] eqn:E'.
    + apply (C33_rogue_element y m p' e' Sy R E') in H. rewrite (D p p' e' Hp Ab Ne E') in H. discriminate.
    + destruct (B p Hp) as [e [E _]]. destruct Ab as [r ->]. rewrite elem_at_app, E' in E. discriminate.
Qed.
Print Assumptions C70_rogue_elements.

Definition demo_overlap_cmds : list cmd := demo_tuned_cmds ++ [CCreateDomain (lit "D3"); CAddElement (lit "D3") (lit "/Sys/Sub/blk/a"); CAddElement (lit "D3") (lit "/Sys/Sub/str")].
Definition demo_overlap : mgr := demo_after demo demo_overlap_cmds.

Lemma demo_overlap_reachable : reachable demo demo_overlap.
Proof. exists demo_start, demo_overlap_cmds, (repeat true 24). split; [exact demo_started|vm_compute; reflexivity]. Qed.

Example C70_domains_nonvacuous : reachable demo demo_overlap /\ (forall l, Permutation (os_order plain l) l)
  /\ shows demo demo_overlap "listAssociatedDomains" ["/Sys/Sub/blk/a"]%string = Some ["D3"]%string
  /\ shows demo demo_overlap "listBelongingDomains" ["/Sys/Sub/blk/a"]%string = Some ["D3"; "D1"]%string
  /\ shows demo demo_overlap "listBelongingDomains" ["/Sys/Aux"]%string = Some []
  /\ shows demo demo_overlap "listAssociatedElements" [] = Some ["/Sys/Sub/blk [D1]"; "/Sys/Sub/bits [D2]"; "/Sys/Sub/blk/a [D3]"; "/Sys/Sub/str [D2, D3]"]%string
  /\ shows demo demo_overlap "listConflictingElements" []
     = Some ["/Sys/Sub/blk/a contained in multiple domains: D3, D1"; "/Sys/Sub/str contained in multiple domains: D2, D3"]%string
  /\ shows demo demo_overlap "listRogueElements" [] = Some ["/Sys/Aux"]%string.
Proof.
  split; [exact demo_overlap_reachable|]. split; [intros l; apply Permutation_refl|]. split; [vm_compute; reflexivity|]. split; [vm_compute; reflexivity|]. split; [vm_compute; reflexivity|].
  split; [vm_compute; reflexivity|]. split; vm_compute; reflexivity.
Qed.

(** ** Status *)

(** status: the modes, the subsystems, for each domain the configuration last applied and the one that waits, the criteria. *)
Theorem C70_status : forall os y ev m args, system_ok y -> reachable y m ->
  exists t body tail doms crits, answers y (reporting os y ev) m "status" args t /\ t = body ++ tail
    /\ text_lines (heading "General:"
                   ++ [lit "System Class: " ++ e_name (sy_root y); lit "Tuning Mode: " ++ onoff (mg_tuning m); lit "Value Space: " ++ lit (if mg_raw m then "raw" else "real");
                       lit "Output Raw Format: " ++ lit (if mg_hex m then "hex" else "dec"); lit "Auto Sync: " ++ onoff (mg_autosync m)]
                   ++ heading "Subsystems:" ++ map (fun i => path_in (sy_root y) [i]) (seq 0 (List.length (e_children (sy_root y))))
                   ++ heading "Last Applied [Pending] Configurations:" ++ doms
                   ++ heading "Selection Criteria:") body
    /\ Forall2 (domain_status (mg_crits m)) (ds_list (mg_doms m)) doms
    /\ separated [newline] crits tail
    /\ Forall2 (fun k line => line = cr_name k ++ lit " = " ++ state_shown k) (mg_crits m) crits.
Proof. exact status_answer. Qed.
Print Assumptions C70_status.

(** The waiting configuration of the status is what an application does out of tuning mode: a name is the one applied; nothing and
    "<none>" leave the one last applied.  (The names of the configurations are neither of these two texts.) *)
Theorem C70_pending : forall y m need, system_ok y -> reachable y m -> mg_tuning m = false ->
  (forall d c, In d (ds_list (mg_doms m)) -> In c (dm_configs d) -> cf_name c <> [] /\ cf_name c <> lit "<none>") ->
  exists m', step y m (CApply need) = Ok (true, m')
    /\ Forall2 (fun d d' => dm_name d' = dm_name d
         /\ forall a b a' b', last_shown d a -> pending_shown (mg_crits m) d b -> last_shown d' a' -> pending_shown (mg_crits m') d' b' ->
              (b = [] \/ b = lit "<none>" -> a' = a /\ b' = b) /\ (b <> [] -> b <> lit "<none>" -> a' = b /\ b' = [])) (ds_list (mg_doms m)) (ds_list (mg_doms m')).
Proof.
  intros y m need Sy R T Nm. destruct (C17_first_applicable_is_applied y m need Sy R T) as [m' [S F]]. exists m'. split; auto.
  destruct (reachable_ok y m Sy R) as [[K _] [Ru _]].
  assert (mg_crits m' = crits_reset (mg_crits m)) as Ec.
  { cbn [step] in S. unfold apply_configurations in S. rewrite T in S. destruct (do_apply y false need m) as [mx| | |] eqn:X; try discriminate. cbn [obind] in S. injection S as <-. apply (apply_crits y false need m mx X). }
  rewrite Ec. assert (forall d, In d (ds_list (mg_doms m)) -> scoped (mg_crits m) d) as Sc by (intros d Hd c r Hc Hr; apply (Ru d c r); auto).
  assert (forall i, state_of (mg_crits m) i = state_of (crits_reset (mg_crits m)) i) as Es by (intros i; symmetry; apply state_reset).
  assert (forall i, state_of (crits_reset (mg_crits m)) i = state_of (mg_crits m) i) as Es' by (intros i; apply state_reset).
  assert (forall d, In d (ds_list (mg_doms m)) -> In d (ds_list (mg_doms m))) as Sub by auto. revert F Sub. generalize (ds_list (mg_doms m)) at 1 2 4. intros l F. induction F as [|d d' l l' H F IH]; intros Sub; constructor;
    [|apply IH; intros x Hx; apply Sub; right; auto].
  destruct H as [[_ [En [_ [_ [Cf _]]]]] [Hf Hn]]. split; auto. assert (In d (ds_list (mg_doms m))) as Hd by (apply Sub; left; auto). clear IH Sub F. intros a b a' b' La Pb La' Pb'.
  assert (forall c c', first_match (mg_crits m) d c -> first_match (crits_reset (mg_crits m)) d' c' -> c' = c) as U.
  { intros c c' A B. apply (first_match_ext _ (mg_crits m) d' d c' Es') in B; auto. apply (applicable_first _ _ _ (Sc d Hd)) in A, B. congruence. }
  assert (forall c, none_match (mg_crits m) d -> ~ first_match (mg_crits m) d c) as X by (intros c N [l1 [l2 [E [M _]]]]; apply (N c); auto; rewrite E, in_app_iff; cbn; auto).
  assert (dm_last d' = dm_last d -> last_shown d a') as Same.
  { intros E. destruct La' as [[c [Hc [Ec' ->]]]|[E' ->]]; [left; exists c; rewrite <- Cf; split; auto; split; congruence|right; split; auto; congruence]. }
  destruct Pb as [[N ->]|[c [Fm Pb]]].
  - split; [|congruence]. intros _. split; [apply (shown_unique y m d a' a Sy R Hd); auto|]. destruct Pb' as [[_ ->]|[c' [Fm' _]]]; auto.
    exfalso. apply (X c' N). apply (first_match_ext _ (mg_crits m) d' d c' Es'); auto.
  - assert (dm_last d' = Some (cf_id c)) as L by auto.
    assert (b' = []) as Eb.
    { destruct Pb' as [[N' _]|[c' [Fm' Pb']]].
      - exfalso. destruct Fm as [l1 [l2 [E [M _]]]]. apply (N' c); [rewrite Cf, E, in_app_iff; cbn; auto|apply (matches_ext (mg_crits m) _ c Es M)].
      - assert (c' = c) as -> by (apply U; auto). destruct Pb' as [[_ ->]|[N' _]]; congruence. }
    assert (In c (dm_configs d)) as Ic by (destruct Fm as [l1 [l2 [E _]]]; rewrite E, in_app_iff; cbn; auto). destruct Pb as [[E ->]|[E ->]].
    + split; [|congruence]. intros _. split; auto. apply (shown_unique y m d a' a Sy R Hd); auto. apply Same. congruence.
    + destruct (Nm d c Hd Ic) as [N1 N2]. split; [intros [Q|Q]; congruence|]. intros _ _. split; auto. destruct La' as [[c' [Hc' [Ec' ->]]]|[E' _]]; [|congruence]. f_equal.
      apply (NoDup_map_in _ _ cf_id _ c' c (dk_ids _ _ (ds_domain _ _ K d Hd))); auto; congruence.
Qed.
Print Assumptions C70_pending.

(** In the demo, after the criteria changed: both domains have a configuration waiting; it is then the one applied. *)
Example C70_status_nonvacuous : reachable demo demo_call /\ mg_tuning demo_call = false
  /\ shows demo demo_call "status" [] = Some [""; "General:"; "========"; "System Class: Sys"; "Tuning Mode: off"; "Value Space: real"; "Output Raw Format: dec"; "Auto Sync: on"; "";
       "Subsystems:"; "==========="; "/Sys/Sub"; "/Sys/Aux"; "";
       "Last Applied [Pending] Configurations:"; "======================================"; "D1: Other [Call]"; "D2: <none> [On]"; "";
       "Selection Criteria:"; "==================="; "Mode = Call"; "Devices = HS"]%string
  /\ (match shows demo demo_called "status" [] with Some l => firstn 2 (skipn 16 l) | None => [] end) = ["D1: Call []"; "D2: On []"]%string.
Proof. split; [apply typed_reachable, demo_call_typed|]. split; [vm_compute; reflexivity|]. split; vm_compute; reflexivity. Qed.

Definition named_none (rule : list cmd) : list cmd :=
  [CTuning true []; CCreateDomain (lit "D"); CAddElement (lit "D") (lit "/Sys/Sub/blk/a"); CCreateConfig (lit "D") (lit "<none>"); CSetParameter (lit "/Sys/Sub/blk/a") (lit "100")] ++ rule.

(** With a configuration named "<none>", the status does not tell: the same answer, and the end of the tuning mode applies it in one
    case and not in the other.  (ConfigurableDomain.cpp:846-878.) *)
Theorem C70_pending_refuted : exists y os ev m1 m2 t m1' m2', system_ok y /\ reachable y m1 /\ reachable y m2 /\ mg_main m1 = mg_main m2
  /\ answers y (reporting os y ev) m1 "status" [] t /\ answers y (reporting os y ev) m2 "status" [] t
  /\ step y m1 (CTuning false []) = Ok (true, m1') /\ step y m2 (CTuning false []) = Ok (true, m2')
  /\ get_parameter y (lit "/Sys/Sub/blk/a") m1' = Ok (lit "0") /\ get_parameter y (lit "/Sys/Sub/blk/a") m2' = Ok (lit "100").
Proof.
  pose (r1 := [CSetRule (lit "D") (lit "<none>") (lit "All{}")]).
  exists demo, plain, silent, (demo_after demo (named_none r1)), (demo_after demo (named_none [])). eexists.
  exists (demo_after demo (named_none r1 ++ [CTuning false []])), (demo_after demo (named_none [] ++ [CTuning false []])). split; [apply demo_ok|].
  split; [exists demo_start, (named_none r1), (repeat true 6); split; [exact demo_started|vm_compute; reflexivity]|].
  split; [exists demo_start, (named_none []), (repeat true 5); split; [exact demo_started|vm_compute; reflexivity]|].
  split; [vm_compute; reflexivity|]. split; [vm_compute; reflexivity|]. split; [vm_compute; reflexivity|]. split; [vm_compute; reflexivity|]. split; [vm_compute; reflexivity|]. split; vm_compute; reflexivity.
Qed.
Print Assumptions C70_pending_refuted.

(** ** Criteria *)

(** listCriteria: for each criterion its name, the kind of its type, its possible states and its state; "CSV" in any case for the
    other layout; any other argument, or two, is refused. *)
Theorem C70_criteria : forall os y ev m,
  (exists t ls, answers y (reporting os y ev) m "listCriteria" [] t /\ separated [newline] ls t /\ Forall2 criterion_shown (mg_crits m) ls)
  /\ (forall a, spells a (lit "CSV") -> exists t ls, answers y (reporting os y ev) m "listCriteria" [a] t /\ separated [newline] ls t /\ Forall2 criterion_csv (mg_crits m) ls)
  /\ (forall args, args <> [] -> (forall a, args = [a] -> ~ spells a (lit "CSV") /\ ~ spells a (lit "XML")) -> refuses y (reporting os y ev) m "listCriteria" args).
Proof. intros os y ev m. split; [apply list_criteria_human|]. split; [intros a; apply list_criteria_csv|apply list_criteria_refused]. Qed.
Print Assumptions C70_criteria.

Example C70_criteria_nonvacuous : shows demo demo_call "listCriteria" ["cSv"]%string
    = Some ["Criterion name: Mode, type kind: exclusive, current state: Call, states: {Call, Normal}"; "Criterion name: Devices, type kind: inclusive, current state: HS, states: {Ear, HS}"]%string
  /\ (match shows demo demo_call "listCriteria" [] with Some l => firstn 5 l | None => [] end) = [""; "Mode:"; "====="; "Possible states (Exclusive): {Call, Normal}"; "Current state = Call"]%string
  /\ shows demo demo_call "listCriteria" ["CSW"]%string = None.
Proof. split; [vm_compute; reflexivity|]. split; vm_compute; reflexivity. Qed.

(** ** Dumps *)

(** dumpElement: every element at or below the given one, once, in the order of the structure, indented by its depth; a parameter with
    the value that getParameter answers for it. *)
Theorem C70_dump_element : forall os y ev m a args p, system_ok y -> names_ok (sy_root y) -> reachable_typed y m -> all_printable y (mg_fmt m) -> locate (sy_root y) a = Some p ->
  exists t ps ls, answers y (reporting os y ev) m "dumpElement" (a :: args) t /\ text_lines ls t /\ StronglySorted before ps
    /\ (forall q, In q ps <-> above p q /\ elem_at (sy_root y) q <> None)
    /\ Forall2 (element_dumped y m p) ps ls.
Proof. exact dump_element_answer. Qed.
Print Assumptions C70_dump_element.

(** dumpDomains: every domain with its awareness and the configuration last applied, every configuration and its rule. *)
Theorem C70_dump_domains : forall os y ev m args, system_ok y -> reachable y m ->
  exists t ls, answers y (reporting os y ev) m "dumpDomains" args t /\ text_lines (dump_line 0 (lit "ConfigurableDomains") [] [] :: List.concat ls) t
    /\ Forall2 (domain_dumped (mg_crits m)) (ds_list (mg_doms m)) ls.
Proof. exact dump_domains_answer. Qed.
Print Assumptions C70_dump_domains.

Example C70_dumps_nonvacuous : reachable_typed demo demo_call
  /\ shows demo demo_call "dumpElement" ["/Sys/Sub"]%string
     = Some ["- Subsystem: Sub"; "    - ParameterBlock: blk"; "        - IntegerParameter: a = 200"; "        - BooleanParameter: arr = 0 1 0"; "        - IntegerParameter: b = 0";
             "    - BitParameterBlock: bits"; "        - BitParameter: low = 0"; "        - BitParameter: high = 1"; "    - StringParameter: str"]%string
  /\ shows demo demo_call "dumpDomains" []
     = Some ["- ConfigurableDomains"; "    - ConfigurableDomain: D1 = {Sequence aware: no, Last applied configuration: Other}";
             "        - Configuration: Call"; "            - CompoundRule = All"; "                - SelectionCriterionRule = Mode Is Call";
             "        - Configuration: Other"; "            - CompoundRule = All";
             "    - ConfigurableDomain: D2 = {Sequence aware: yes, Last applied configuration: <none>}";
             "        - Configuration: On"; "            - CompoundRule = Any"; "                - SelectionCriterionRule = Devices Includes HS"]%string.
Proof. split; [exact demo_call_typed|]. split; vm_compute; reflexivity. Qed.

(** ** Documents *)

(** The commands that import give the text or the file to the import they name, with the options they name; the answer is its result. *)
Theorem C70_imports : forall y ev m name args i b m', imports name args i -> ev_import ev i m = Ok (b, m') ->
  exists t, process y ev m (Request (lit name) args) = Ok (Answer t b, m') /\ (b = true -> t = lit "Done").
Proof. exact imported. Qed.
Print Assumptions C70_imports.

(** A second argument other than "overwrite" is refused. *)
Theorem C70_import_option : forall y ev m name s o r, In name ["importDomainWithSettingsXML"; "setDomainWithSettingsXML"]%string -> o <> lit "overwrite" ->
  refuses y ev m name (s :: o :: r).
Proof. exact import_refused. Qed.
Print Assumptions C70_import_option.

(** The text of getDomainsWithSettingsXML, given to setDomainsWithSettingsXML of another framework of the same structure in tuning
    mode, makes the same domains there; getDomainsXML answers the same text.  (libxml2 reads back what it writes.) *)
Theorem C70_documents : forall os y ev m m2 args r, system_ok y -> names_ok (sy_root y) -> history y m -> history y m2 -> mg_tuning m2 = true ->
  same_criteria (mg_crits m) (mg_crits m2) -> distinguishable (mg_crits m) ->
  (forall d, In d (ds_list (mg_doms m)) -> exportable y (mg_crits m) (mg_fmt m) d) ->
  (forall x, export_domains y true m = Ok x -> exists x', os_read os false (os_write os x) = Some x' /\ like x x') ->
  exists t m', answers y (reporting os y ev) m "getDomainsWithSettingsXML" args t /\ answers y (reporting os y ev) m "getDomainsXML" args t
    /\ process y (reporting os y ev) m2 (Request (lit "setDomainsWithSettingsXML") (t :: r)) = Ok (Answer (lit "Done") true, m')
    /\ m' = with_doms m2 (mg_doms m') /\ same_domains y (mg_doms m) (mg_doms m').
Proof.
  intros os y ev m m2 args r Sy Nm H1 H2 T Sc D Ex Rd. destruct (C50_round_trip y m m2 Sy Nm H1 H2 T Sc D Ex) as [x [E B]]. destruct (Rd x E) as [x' [Er Lk]]. destruct (B x' Lk) as [m' [Ei [Em [_ F]]]].
  exists (os_write os x), m'. split; [|split; [|split; [|split; auto]]].
  - apply reported0; [cbn [listing In]; tauto|]. change (report os y (lit "getDomainsWithSettingsXML") [] m) with (answered (omap (os_write os) (export_domains y true m))). rewrite E. reflexivity.
  - apply reported0; [cbn [listing In]; tauto|]. change (report os y (lit "getDomainsXML") [] m) with (answered (omap (os_write os) (export_domains y true m))). rewrite E. reflexivity.
  - destruct (imported y (reporting os y ev) m2 "setDomainsWithSettingsXML" (os_write os x :: r) (IDomains (os_write os x) true false) true m') as [t [P Q]].
    + constructor.
    + cbn [reporting ev_import import_from]. rewrite Er. exact Ei.
    + rewrite (Q eq_refl) in P. exact P.
Qed.
Print Assumptions C70_documents.

(** The text of getDomainWithSettingsXML for one domain, given to setDomainWithSettingsXML of another framework of the same structure in
    tuning mode: the domain comes last there; one with the same name goes away if the word "overwrite" was given, and otherwise the command
    fails and changes no domain. *)
Theorem C70_domain_document : forall os y ev m m2 name d args (over : bool) r, system_ok y -> names_ok (sy_root y) -> history y m -> history y m2 -> mg_tuning m2 = true ->
  same_criteria (mg_crits m) (mg_crits m2) -> distinguishable (mg_crits m) ->
  ds_find name (mg_doms m) = Some d -> dm_name d = name -> exportable y (mg_crits m) (mg_fmt m) d ->
  (forall x, export_domain y true name m = Ok x -> exists x', os_read os false (os_write os x) = Some x' /\ like x x') ->
  exists t t2 b m', answers y (reporting os y ev) m "getDomainWithSettingsXML" (name :: args) t
    /\ process y (reporting os y ev) m2 (Request (lit "setDomainWithSettingsXML") (t :: if over then lit "overwrite" :: r else [])) = Ok (Answer t2 b, m')
    /\ m' = with_doms m2 (mg_doms m')
    /\ ((b = true /\ t2 = lit "Done" /\ exists l1 old l2 d', ds_list (mg_doms m2) = l1 ++ old ++ l2 /\ ds_list (mg_doms m') = l1 ++ l2 ++ [d'] /\ same_domain y d d'
            /\ match ds_find name (mg_doms m2) with None => old = [] | Some d0 => old = [d0] /\ over = true end)
        \/ (b = false /\ ds_list (mg_doms m') = ds_list (mg_doms m2) /\ over = false /\ ds_find name (mg_doms m2) <> None)).
Proof.
  intros os y ev m m2 name d args over r Sy Nm H1 H2 T Sc D Fd Nd Ex Rd. destruct (C50_single y m m2 name d over Sy Nm H1 H2 T Sc D Fd Nd Ex) as [x [E B]].
  destruct (Rd x E) as [x' [Er Lk]]. destruct (B x' Lk) as [b [m' [Ei [Em F]]]].
  destruct (imported y (reporting os y ev) m2 "setDomainWithSettingsXML" (os_write os x :: if over then lit "overwrite" :: r else []) (IDomain (os_write os x) over true false) b m') as [t [P Q]].
  { destruct over; constructor. }
  { cbn [reporting ev_import import_from]. rewrite Er. exact Ei. }
  exists (os_write os x), t, b, m'. split; [|split; [exact P|split; [exact Em|]]].
  - apply reported1; [cbn [listing In]; tauto|]. change (report os y (lit "getDomainWithSettingsXML") [name] m) with (answered (omap (os_write os) (export_domain y true name m))). rewrite E. reflexivity.
  - destruct F as [[-> F]|F]; [left|right; exact F]. split; auto.
Qed.
Print Assumptions C70_domain_document.

(** The text of getElementXML, given to setElementXML in tuning mode on the same path: the parameters of the element read as they did
    where the text was made, and no other parameter changes.  The answer tells whether the hardware took them. *)
Theorem C70_element_document : forall os y ev m m2 a args r p, system_ok y -> reachable y m -> reachable y m2 -> mg_tuning m2 = true -> locate (sy_root y) a = Some p ->
  (forall q c, param_at (sy_root y) (p ++ q) c -> restorable (mg_fmt m) (mg_raw m2) (e_kind c) (offset (sy_root y) (p ++ q)) (mg_main m)) ->
  (forall x, get_xml y p m = Ok x -> exists x', os_read os false (os_write os x) = Some x' /\ like x x') ->
  exists t t2 b m', answers y (reporting os y ev) m "getElementXML" (a :: args) t
    /\ process y (reporting os y ev) m2 (Request (lit "setElementXML") (a :: t :: r)) = Ok (Answer t2 b, m') /\ pushed y p m2 m' b /\ memory_only m2 m'
    /\ (forall q c path rest f, param_at (sy_root y) q c -> above p q -> param_of (sy_root y) path = Some (q, rest) ->
          access_get (sy_root y) f path 0 (mg_main m') = access_get (sy_root y) f path 0 (mg_main m))
    /\ (forall q c, param_at (sy_root y) q c -> ~ above p q -> same_setting (sy_root y) q 0 (mg_main m') 0 (mg_main m2)).
Proof.
  intros os y ev m m2 a args r p Sy R1 R2 T Lo Re Rd. destruct (elem_at (sy_root y) p) as [e|] eqn:E; [|destruct (locate_elem (sy_root y) a p (proj1 (proj1 Sy)) Lo E)]. destruct (C43_round_trip y m m2 p e Sy R1 R2 E Re) as [x [Ex B]].
  destruct (Rd x Ex) as [x' [Er Lk]]. destruct (B x' Lk) as [b [m' [Es [Pu [Me [Ga Fr]]]]]].
  exists (os_write os x), (if b then lit "Done" else ev_error ev (Request (lit "setElementXML") (a :: os_write os x :: r)) m2), b, m'. split; [|split; [|auto]].
  - apply reported1; [cbn [listing In]; tauto|]. change (report os y (lit "getElementXML") [a] m) with (answered (omap (os_write os) (get_element_xml y a m))).
    unfold get_element_xml. rewrite Lo, Ex. reflexivity.
  - known. unfold two_args. cbn [arg nth_error obind execute]. rewrite T, Lo. unfold done. cbn [reporting ev_import import_from]. rewrite Er.
    unfold set_element_xml, tuned. rewrite T, Lo, Es. cbn [obind fst snd]. destruct b; reflexivity.
Qed.
Print Assumptions C70_element_document.

(** A text or a file that is no document: every import command fails and changes nothing. *)
Theorem C70_unread : forall os y ev m name args, 
  (forall i, imports name args i -> match i with IDomains s _ file | IDomain s _ _ file => os_read os file s = None | IElement _ s => os_read os false s = None end) ->
  (exists i, imports name args i) -> refuses y (reporting os y ev) m name args.
Proof.
  intros os y ev m name args H [i I]. specialize (H i I).
  destruct (imported y (reporting os y ev) m name args i false m I) as [t [P _]]; [|exists t; exact P].
  cbn [reporting ev_import]. destruct I; cbn [import_from]; rewrite H; unfold import_domains, import_domain, tuned; destruct (mg_tuning m); reflexivity.
Qed.
Print Assumptions C70_unread.

Theorem C70_unread_element : forall os y ev m a t r, os_read os false t = None -> refuses y (reporting os y ev) m "setElementXML" (a :: t :: r).
Proof.
  intros os y ev m a t r H. unfold refuses. eexists. known. unfold two_args. cbn [arg nth_error obind execute].
  destruct (mg_tuning m); [destruct (locate (sy_root y) a)|]; unfold done; cbn [reporting ev_import import_from]; rewrite ?H; cbn [obind fst snd]; reflexivity.
Qed.
Print Assumptions C70_unread_element.

(** libxml2 as a single document, that of the demo. *)
Definition one_document : outside :=
  Outside (fun l => l) (os_details plain) (fun _ t => if str_eqb t (lit "<domains/>") then match export_domains xd true dx with Ok x => Some x | _ => None end else None) (fun _ => lit "<domains/>").

Lemma like_refl : forall x, is_elem x = true -> like x x.
Proof.
  induction x as [s|ty a c IH] using xnode_ind_nested; intros E; [discriminate|]. constructor; auto. induction c as [|x c IHc]; [constructor|]. inversion IH as [|? ? H1 H2]; subst. cbn [filter].
  destruct (is_elem x) eqn:Ex; auto.
Qed.

Example C70_documents_nonvacuous : (forall x, export_domains xd true dx = Ok x -> exists x', os_read one_document false (os_write one_document x) = Some x' /\ like x x')
  /\ (match process xd (reporting one_document xd silent) dx_other (Request (lit "setDomainsWithSettingsXML") [lit "<domains/>"]) with
      | Ok (a, m') => Some (a, map dm_name (ds_list (mg_doms m'))) | _ => None end) = Some (Answer (lit "Done") true, [lit "D"; lit "E"]).
Proof.
  split; [|vm_compute; reflexivity]. intros x E. exists x. split; [cbn [os_read os_write one_document]; rewrite E; reflexivity|]. apply like_refl.
  let r := eval vm_compute in (export_domains xd true dx) in match r with Ok ?v => assert (export_domains xd true dx = Ok v) as Q by (vm_compute; reflexivity) end. rewrite Q in E. injection E as <-. reflexivity.
Qed.

(** libxml2 as two documents more: the domain "D" and the settings of the subsystem of the demo. *)
Definition two_documents : outside :=
  Outside (fun l => l) (os_details plain)
    (fun _ t => if str_eqb t (lit "ConfigurableDomain") then match export_domain xd true (lit "D") dx with Ok x => Some x | _ => None end
                else if str_eqb t (lit "Subsystem") then match get_xml xd [0] xd_state with Ok x => Some x | _ => None end else None) x_type.
Definition set_one (m : mgr) (args : list str) : option (bool * list str) :=
  match process xd (reporting two_documents xd silent) m (Request (lit "setDomainWithSettingsXML") args) with Ok (Answer _ b, m') => Some (b, map dm_name (ds_list (mg_doms m'))) | _ => None end.

Example C70_domain_document_nonvacuous : (exists d, ds_find (lit "D") (mg_doms dx) = Some d /\ dm_name d = lit "D" /\ In d (ds_list (mg_doms dx)))
  /\ (forall x, export_domain xd true (lit "D") dx = Ok x -> exists x', os_read two_documents false (os_write two_documents x) = Some x' /\ like x x')
  /\ shows xd dx "getDomainWithSettingsXML" ["none"]%string = None
  /\ set_one dx [lit "ConfigurableDomain"] = Some (false, [lit "D"; lit "E"])
  /\ set_one dx [lit "ConfigurableDomain"; lit "overwrite"] = Some (true, [lit "E"; lit "D"])
  /\ set_one dx [lit "nothing"; lit "overwrite"] = Some (false, [lit "D"; lit "E"]).
Proof.
  split; [eexists; split; [vm_compute; reflexivity|split; [reflexivity|vm_compute; auto]]|].
  split; [|split; [vm_compute; reflexivity|split; [vm_compute; reflexivity|split; vm_compute; reflexivity]]]. intros x E. exists x.
  let r := eval vm_compute in (export_domain xd true (lit "D") dx) in match r with Ok ?v => assert (export_domain xd true (lit "D") dx = Ok v) as Q by (vm_compute; reflexivity) end.
  rewrite Q in E. injection E as <-. split; [cbn [os_write os_read two_documents]; rewrite Q; reflexivity|apply like_refl; reflexivity].
Qed.

(** With the hypotheses of C43_round_trip_nonvacuous. *)
Example C70_element_document_nonvacuous : mg_tuning xd_other = true /\ locate (sy_root xd) (lit "/Sys/Sub") = Some [0]
  /\ (forall x, get_xml xd [0] xd_state = Ok x -> exists x', os_read two_documents false (os_write two_documents x) = Some x' /\ like x x')
  /\ (match process xd (reporting two_documents xd silent) xd_other (Request (lit "setElementXML") [lit "/Sys/Sub"; lit "Subsystem"]) with
      | Ok (Answer _ b, m') => Some (b, get_parameter xd (lit "/Sys/Sub/str") m') | _ => None end) = Some (true, Ok (lit "abc")).
Proof.
  split; [vm_compute; reflexivity|]. split; [vm_compute; reflexivity|]. split; [|vm_compute; reflexivity]. intros x E. exists x.
  let r := eval vm_compute in (get_xml xd [0] xd_state) in match r with Ok ?v => assert (get_xml xd [0] xd_state = Ok v) as Q by (vm_compute; reflexivity) end.
  rewrite Q in E. injection E as <-. split; [cbn [os_write os_read two_documents]; rewrite Q; reflexivity|apply like_refl; reflexivity].
Qed.

(** ** Short answers *)

(** The modes, the list of the domains. *)
Theorem C70_shown : forall y ev m args,
  answers y ev m "getTuningMode" args (onoff (mg_tuning m)) /\ answers y ev m "getValueSpace" args (lit (if mg_raw m then "raw" else "real"))
  /\ answers y ev m "getOutputRawFormat" args (lit (if mg_hex m then "hex" else "dec")) /\ answers y ev m "getAutoSync" args (onoff (mg_autosync m))
  /\ exists t, answers y ev m "listDomains" args t /\ text_lines (map (fun d => dm_name d ++ lit (if dm_aware d then " [sequence aware]" else "")) (ds_list (mg_doms m))) t.
Proof.
  intros y ev m args. unfold answers. split; [known; cbn [execute ask obind fst snd]; unfold onoff; destruct (mg_tuning m); reflexivity|]. split; [known; unfold no_arg; cbn [execute ask obind fst snd]; destruct (mg_raw m); reflexivity|].
  split; [known; unfold no_arg; cbn [execute ask obind fst snd]; destruct (mg_hex m); reflexivity|]. split; [known; cbn [execute ask obind fst snd]; unfold onoff; destruct (mg_autosync m); reflexivity|].
  eexists. split; [known; unfold no_arg; cbn [execute ask obind fst snd]; reflexivity|]. induction (ds_list (mg_doms m)) as [|d l IH]; [constructor|]. cbn [map]. unfold lines. cbn [flat_map]. rewrite <- app_assoc. cbn [app].
  destruct (dm_aware d); cbn [app]; constructor; exact IH.
Qed.
Print Assumptions C70_shown.

(** What is answered about a domain or a configuration: its awareness, configurations, elements, rule and order of the elements (after
    an empty line). *)
Theorem C70_shown_domain : forall y ev m n d args, ds_find n (mg_doms m) = Some d ->
  answers y ev m "getSequenceAwareness" (n :: args) (lit (if dm_aware d then "true" else "false"))
  /\ (exists t, answers y ev m "listConfigurations" (n :: args) t /\ text_lines (map cf_name (dm_configs d)) t)
  /\ (exists t, answers y ev m "listDomainElements" (n :: args) t /\ text_lines (map (path_in (sy_root y)) (dm_elems d)) t)
  /\ forall k c, dm_find k d = Some c ->
       answers y ev m "getRule" (n :: k :: args) (get_application_rule (mg_crits m) (cf_rule c))
       /\ exists t, answers y ev m "getElementSequence" (n :: k :: args) t /\ text_lines ([] :: map (fun a => path_in (sy_root y) (ar_pos a)) (cf_areas c)) t.
Proof.
  intros y ev m n d args F. unfold answers.
  split; [known; unfold one_arg; cbn [arg nth_error obind execute ask]; rewrite F; unfold found; cbn [obind fst snd]; destruct (dm_aware d); reflexivity|].
  split; [eexists; split; [known; unfold one_arg; cbn [arg nth_error obind execute ask]; rewrite F; unfold found; cbn [obind fst snd]; reflexivity|apply lines_text]|].
  split; [eexists; split; [known; unfold one_arg; cbn [arg nth_error obind execute ask]; rewrite F; unfold found; cbn [obind fst snd]; reflexivity|apply lines_text]|].
  intros k c Fc. split; [known; unfold two_args; cbn [arg nth_error obind execute ask]; rewrite F, Fc; unfold found; cbn [obind fst snd]; reflexivity|].
  eexists. split; [known; unfold two_args; cbn [arg nth_error obind execute ask]; rewrite F, Fc; unfold found; cbn [obind fst snd]; reflexivity|]. apply (tl_line [] _ _). apply lines_text.
Qed.
Print Assumptions C70_shown_domain.

(** Nothing is shown of a domain or a configuration that is not there. *)
Theorem C70_shown_missing : forall y ev m n args, ds_find n (mg_doms m) = None ->
  (forall name, In name ["getSequenceAwareness"; "listConfigurations"; "listDomainElements"]%string -> refuses y ev m name (n :: args))
  /\ forall name k, In name ["getRule"; "getElementSequence"]%string -> refuses y ev m name (n :: k :: args).
Proof.
  intros y ev m n args F. unfold refuses. split.
  - intros name I. cbn [In] in I. repeat (destruct I as [<-|I]; [eexists; known; unfold one_arg; cbn [arg nth_error obind execute ask]; rewrite F; unfold found; cbn [obind fst snd]; reflexivity|]). destruct I.
  - intros name k I. cbn [In] in I. repeat (destruct I as [<-|I]; [eexists; known; unfold two_args; cbn [arg nth_error obind execute ask]; rewrite F; unfold found; cbn [obind fst snd]; reflexivity|]). destruct I.
Qed.
Print Assumptions C70_shown_missing.

Theorem C70_shown_no_configuration : forall y ev m n d k args name, ds_find n (mg_doms m) = Some d -> dm_find k d = None -> In name ["getRule"; "getElementSequence"]%string ->
  refuses y ev m name (n :: k :: args).
Proof.
  intros y ev m n d k args name F Fc I. unfold refuses. cbn [In] in I.
  repeat (destruct I as [<-|I]; [eexists; known; unfold two_args; cbn [arg nth_error obind execute ask]; rewrite F, Fc; unfold found; cbn [obind fst snd]; reflexivity|]). destruct I.
Qed.
Print Assumptions C70_shown_no_configuration.

Example C70_shown_nonvacuous : ds_find (lit "D2") (mg_doms demo_tuned) <> None
  /\ shows demo demo_tuned "listDomains" [] = Some ["D1"; "D2 [sequence aware]"]%string /\ shows demo demo_tuned "getTuningMode" [] = Some ["on"]%string
  /\ shows demo demo_tuned "listConfigurations" ["D1"]%string = Some ["Call"; "Other"]%string
  /\ shows demo demo_tuned "getElementSequence" ["D2"; "On"]%string = Some [""; "/Sys/Sub/bits"; "/Sys/Sub/str"]%string
  /\ shows demo demo_tuned "getRule" ["D1"; "Call"]%string = Some ["All{Mode Is Call}"]%string
  /\ shows demo demo_tuned "getRule" ["D1"; "Cal"]%string = None.
Proof. split; [vm_compute; discriminate|]. split; [vm_compute; reflexivity|]. split; [vm_compute; reflexivity|]. split; [vm_compute; reflexivity|]. split; [vm_compute; reflexivity|]. split; vm_compute; reflexivity. Qed.

(** getElementBytes: the bytes of the element in the memory, in hexadecimal, two digits each; getElementSize: how many. *)
Theorem C70_bytes : forall y ev m a args p e, system_ok y -> reachable y m -> locate (sy_root y) a = Some p -> elem_at (sy_root y) p = Some e ->
  (exists t ws, answers y ev m "getElementBytes" (a :: args) t /\ separated (lit " ") ws t
     /\ Forall2 (fun b w => w = lit "0x" ++ [hex_digit (nat_of_ascii b / 16); hex_digit (nat_of_ascii b mod 16)] /\ convertTo (CType false 1) w = Some (bval b))
                (firstn (footprint e) (skipn (offset (sy_root y) p) (mg_main m))) ws
     /\ List.length ws = footprint e)
  /\ answers y ev m "getElementSize" (a :: args) (print_dec (Z.of_nat (footprint e)) ++ lit " byte(s)").
Proof.
  intros y ev m a args p e Sy R L E. destruct (reachable_ok y m Sy R) as [[_ [_ Lm]] _]. pose proof (proj1 (proj1 Sy)) as W.
  destruct (get_set_bytes (sy_root y) p e (mg_main m) W Lm E) as [bytes [G [Lb _]]].
  assert (bytes = firstn (footprint e) (skipn (offset (sy_root y) p) (mg_main m))) as Eb.
  { unfold get_bytes, bb_read_bytes in G. rewrite E, Nat.sub_0_r in G. destruct (bb_access_ok _ _ _); [|discriminate]. injection G as <-. reflexivity. }
  unfold answers. split.
  - exists (bytes_text bytes), (map byte_text bytes). split; [|split; [apply separated_join|split; [|rewrite map_length; auto]]].
    + known. unfold one_arg. cbn [arg nth_error obind execute ask]. rewrite L, G. reflexivity.
    + rewrite <- Eb. apply Forall2_map_r. intros b _. split; [apply byte_text_digits|apply byte_text_read].
  - known. unfold one_arg. cbn [arg nth_error obind execute ask]. rewrite L, E. reflexivity.
Qed.
Print Assumptions C70_bytes.

Example C70_bytes_nonvacuous : shows demo demo_tuned "getElementBytes" ["/Sys/Sub/blk"]%string = Some ["0xc8 0x00 0x00 0x01 0x00 0x00 0x00"]%string
  /\ shows demo demo_tuned "getElementSize" ["/Sys/Sub/blk"]%string = Some ["7 byte(s)"]%string.
Proof. split; vm_compute; reflexivity. Qed.

(** ** Help *)

Fixpoint distinct (l : list str) : bool := match l with [] => true | x :: r => negb (existsb (str_eqb x) r) && distinct r end.
Lemma distinct_names : forall l, distinct l = true -> NoDup l.
Proof.
  induction l as [|x l IH]; intros H; constructor; cbn [distinct] in H; apply andb_true_iff in H as [H1 H2]; auto. intros I. apply negb_true_iff in H1.
  assert (existsb (str_eqb x) l = true) as E by (apply existsb_exists; exists x; split; auto; apply str_eqb_eq; reflexivity). congruence.
Qed.

(** help: one line for each command: its name, its arguments, its description, the descriptions in the same column.  A name that is not
    there is not a command. *)
Theorem C70_help : forall os y ev m args, exists t names ls column, answers y (reporting os y ev) m "help" args t /\ text_lines ls t /\ NoDup names
  /\ Forall2 (fun name line => exists w k s, line = name ++ lit " " ++ w ++ repeat " "%char k ++ lit "=> " ++ s /\ 5 <= k
                /\ List.length name + 1 + List.length w + k = column /\ s <> []) names ls
  /\ forall name r, ~ In name names -> process y (reporting os y ev) m (Request name r)
       = Ok (Answer (lit "Command not found!" ++ newline :: lit "Use ""help"" to show available commands") false, m).
Proof.
  intros os y ev m args. exists help_text, (map (fun x => en_name (fst x)) (combine table descriptions)). eexists. exists (max_usage + 5). split; [reflexivity|]. split; [exact help_lines|].
  assert (map (fun x => en_name (fst x)) (combine table descriptions) = map en_name table) as En by (vm_compute; reflexivity).
  split; [rewrite En; apply distinct_names; vm_compute; reflexivity|]. split.
  - apply Forall2_map_both. intros x Hx. exists (en_help (fst x)), (max_usage + 5 - List.length (usage (fst x))), (lit (snd x)). unfold usage at 1. rewrite <- !app_assoc. split; auto.
    assert (forallb (fun x => (List.length (usage (fst x)) <=? max_usage) && negb (str_eqb (lit (snd x)) [])) (combine table descriptions) = true) as F by (vm_compute; reflexivity).
    rewrite forallb_forall in F. apply F in Hx. apply andb_true_iff in Hx as [H1 H2]. apply Nat.leb_le in H1. unfold usage in *. rewrite !app_length in *. cbn [List.length lit list_ascii_of_string] in *.
    split; [lia|]. split; [lia|]. intros Q. rewrite Q in H2. discriminate.
  - intros name r N. rewrite En in N. unfold process. cbn [rq_command]. unfold find_entry. destruct (find _ table) as [e|] eqn:F; [|reflexivity].
    apply find_some in F as [F1 F2]. apply str_eqb_eq in F2. destruct N. rewrite <- F2. apply in_map. exact F1.
Qed.
Print Assumptions C70_help.

Example C70_help_nonvacuous : (match shows demo demo_tuned "help" [] with Some l => (List.length l, map (nth 3 l) [""]%string) | None => (0, []) end)
  = (68, ["setTuningMode on|off*                                                       => Turn on or off Tuning Mode"])%string.
Proof. vm_compute. reflexivity. Qed.

(** ** Properties *)

(** showProperties: the kind, the descriptions, the size, and what the type says of the values. *)
Theorem C70_properties : forall os y ev m a args p e, locate (sy_root y) a = Some p -> elem_at (sy_root y) p = Some e -> not_a_character (e_kind e) ->
  exists t, answers y (reporting os y ev) m "showProperties" (a :: args) t
    /\ text_lines ([lit "Kind: " ++ kind_text (e_kind e)] ++ optional "Description" (dt_desc (os_details os) p)
         ++ [lit "Total size: " ++ print_dec (Z.of_nat (footprint e)) ++ lit " byte(s)"]
         ++ match e_kind e with KdSystem | KdSubsystem => [] | _ => optional "Description" (dt_type_desc (os_details os) p) end
         ++ kind_shown (dt_unit (os_details os) p) (e_kind e)) t.
Proof. exact show_properties. Qed.
Print Assumptions C70_properties.

Example C70_properties_nonvacuous : shows demo demo_tuned "showProperties" ["/Sys/Aux/x"]%string
    = Some ["Kind: IntegerParameter"; "Total size: 2 byte(s)"; "Description: of a type"; "Unit: dB"; "Scalar size: 2 byte(s) "; "Signed: no"; "Min: 5"; "Max: 1000"]%string
  /\ shows demo demo_tuned "showProperties" ["/Sys/Sub/bits/high"]%string
    = Some ["Kind: BitParameter"; "Total size: 0 byte(s)"; "Description: of a type"; "Bit pos: 4"; "Bit size: 2"; "Max: 3"]%string.
Proof. split; vm_compute; reflexivity. Qed.

(** The bounds of an 8 bit integer are written as the characters they number: a maximum of 10 is an end of line.
    (IntegerParameterType.h:277-280 writes a uint8_t.) *)
Theorem C70_properties_refuted : exists y os ev m t, system_ok y /\ reachable y m
  /\ (exists e, elem_at (sy_root y) [0; 0] = Some e /\ e_kind e = KdParam (PInt false 1 0 10) /\ locate (sy_root y) (lit "/Sys/Sub/v") = Some [0; 0])
  /\ answers y (reporting os y ev) m "showProperties" [lit "/Sys/Sub/v"] t
  /\ text_lines [lit "Kind: IntegerParameter"; lit "Total size: 1 byte(s)"; lit "Scalar size: 1 byte(s) "; lit "Signed: no"; lit "Min: " ++ [ascii_of_nat 0]; lit "Max: "; []] t.
Proof.
  exists odd_system, (Outside (fun l => l) (Details (fun _ => []) (fun _ => []) (fun _ => [])) (fun _ _ => None) (fun _ => [])), silent, odd_start.
  exists (lines [lit "Kind: IntegerParameter"; lit "Total size: 1 byte(s)"; lit "Scalar size: 1 byte(s) "; lit "Signed: no"; lit "Min: " ++ [ascii_of_nat 0]; lit "Max: "; []]).
  split; [exact odd_ok|]. split; [exact odd_reachable|]. split; [eexists; split; [vm_compute; reflexivity|split; vm_compute; reflexivity]|]. split; [vm_compute; reflexivity|apply lines_text].
Qed.
Print Assumptions C70_properties_refuted.
