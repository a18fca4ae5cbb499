(** C74, C75: starting from files; loading of plugins. *)
From Coq Require Import List Arith ZArith Bool Ascii String Permutation Lia.
From Verif Require Import Base BaseProofs TextModel CriterionModel CriterionSpec BlackboardModel BlackboardProofs TreeModel TreeSpec SyncModel DomainModel DomainSpec DomainProofs MgrModel MgrSpec MgrSkel
  LoadModel LoadSpec LoadProofs LoadProps XmlModel DomXmlModel DomXmlSpec DomXmlHist DomXmlInv MapModel TypeModel DeclModel DeclSpec DeclProofs DeclSysProofs DeclDemo DeclProps GenModel GenProofs
  FileModel FileSpec FileProofs.
Import ListNotations.
Local Open Scope nat_scope.

(** ** C75: plugins *)

(** Whatever the libraries need, loading opens them one after the other, in an order in which each finds what it needs, and the ones
    left are those that do not open even with all the others. *)
Theorem C75_loads : forall opens files loaded left, load_plugins opens files = (loaded, left) ->
  Permutation (loaded ++ left) files /\ opening opens [] loaded /\ (forall f, In f left -> opens loaded f = false).
Proof. intros opens files loaded left H. destruct (plugins_made opens files) as [l [rem [E [O [P F]]]]]. rewrite E in H. injection H as <- <-. auto. Qed.
Print Assumptions C75_loads.

(** When more open libraries do no harm: every library that can be opened, in some order of some of the files, is opened. *)
Theorem C75_all_that_can : forall opens files loaded left seq, monotone opens -> load_plugins opens files = (loaded, left) ->
  incl seq files -> opening opens [] seq -> incl seq loaded.
Proof.
  intros opens files loaded left seq M H I O. destruct (C75_loads _ _ _ _ H) as [P [_ F]].
  exact (opening_incl opens files loaded left M P F seq [] (incl_nil_l _) I O).
Qed.
Print Assumptions C75_all_that_can.

(** Nothing is left exactly when there is an order in which all the files open. *)
Theorem C75_complete : forall opens files loaded left, monotone opens -> load_plugins opens files = (loaded, left) ->
  (left = [] <-> exists seq, Permutation seq files /\ opening opens [] seq).
Proof.
  intros opens files loaded left M H. destruct (C75_loads _ _ _ _ H) as [P [O F]]. split.
  - intros ->. exists loaded. rewrite app_nil_r in P. auto.
  - intros [seq [Ps Os]]. destruct left as [|f r]; auto. exfalso.
    assert (In f files) as Hf by (apply (Permutation_in _ P); apply in_or_app; right; left; auto).
    assert (In f loaded) as Hl.
    { apply (C75_all_that_can opens files loaded (f :: r) seq M H); auto; [intros g Hg; apply (Permutation_in _ Ps); auto|]. apply (Permutation_in _ (Permutation_sym Ps)). auto. }
    pose proof (opening_opens opens loaded [] f M O Hl) as Q. cbn [app] in Q. rewrite (F f (or_introl eq_refl)) in Q. discriminate Q.
Qed.
Print Assumptions C75_complete.

(** The order of the files does not matter: the same libraries are opened, and if none is left with one order none is with the other. *)
Theorem C75_any_order : forall opens files files' loaded left loaded' left', monotone opens -> Permutation files files' ->
  load_plugins opens files = (loaded, left) -> load_plugins opens files' = (loaded', left') ->
  (forall f, In f loaded <-> In f loaded') /\ (left = [] <-> left' = []).
Proof.
  intros opens files files' loaded left loaded' left' M P H H'. destruct (C75_loads _ _ _ _ H) as [P1 [O1 _]]. destruct (C75_loads _ _ _ _ H') as [P2 [O2 _]]. split.
  - intros f. split; revert f.
    + apply (C75_all_that_can opens files' loaded' left' loaded M H'); auto. intros f Hf. apply (Permutation_in _ P). apply (Permutation_in _ P1). apply in_or_app. auto.
    + apply (C75_all_that_can opens files loaded left loaded' M H); auto. intros f Hf. apply (Permutation_in _ (Permutation_sym P)). apply (Permutation_in _ P2). apply in_or_app. auto.
  - rewrite (C75_complete _ _ _ _ M H), (C75_complete _ _ _ _ M H'). split; intros [seq [Ps Os]]; exists seq; split; auto.
    + transitivity files; auto.
    + transitivity files'; auto. symmetry. auto.
Qed.
Print Assumptions C75_any_order.

Lemma library_apart : forall ou fb loaded t, types_apart (ou_brings ou) loaded ->
  forall p, library ou fb loaded t = Some p <->
    (t = lit "Virtual" /\ p = virtual_plugin) \/ (exists f, In f loaded /\ In (t, p) (ou_brings ou f))
    \/ (fb = true /\ p = virtual_plugin /\ t <> lit "Virtual" /\ forall f q, In f loaded -> ~ In (t, q) (ou_brings ou f)).
Proof.
  intros ou fb loaded t A p. unfold library.
  destruct (find (fun b => str_eqb (fst b) t) (rev ((lit "Virtual", virtual_plugin) :: flat_map (ou_brings ou) loaded))) as [[t' p']|] eqn:E.
  - apply find_some in E. destruct E as [I E]. cbn [fst] in E. apply str_eqb_eq in E. subst t'. apply in_rev in I. cbn [snd]. destruct I as [Q|I].
    + injection Q as Q1 Q2. split.
      * intros Q. injection Q as <-. left. auto.
      * intros [[_ ->]|[[f [Hf Hp]]|[_ [-> _]]]]; [subst; auto| |subst; auto]. destruct (A f f t p p Hf Hf Hp Hp) as [_ [_ Nv]]. destruct Nv. auto.
    + apply in_flat_map in I. destruct I as [f [Hf Hp]]. split.
      * intros Q. injection Q as <-. right. left. eauto.
      * intros [[-> _]|[[g [Hg Hq]]|[_ [_ [_ Q]]]]].
        -- destruct (A f f _ p' p' Hf Hf Hp Hp) as [_ [_ Nv]]. destruct Nv. auto.
        -- destruct (A f g t p' p Hf Hg Hp Hq) as [_ [-> _]]. reflexivity.
        -- destruct (Q f p' Hf Hp).
  - assert (forall q, ~ In (t, q) ((lit "Virtual", virtual_plugin) :: flat_map (ou_brings ou) loaded)) as Nn.
    { intros q Hq. apply in_rev in Hq. pose proof (List.find_none _ _ E _ Hq) as Q. cbn [fst] in Q. rewrite str_eqb_refl in Q. discriminate Q. }
    split.
    + destruct fb; [|intros Q; discriminate Q]. intros Q. injection Q as <-. right. right. split; auto. split; auto. split.
      * intros ->. apply (Nn virtual_plugin). left. reflexivity.
      * intros f q Hf Hq. apply (Nn q). right. apply in_flat_map. eauto.
    + intros [[-> ->]|[[f [Hf Hp]]|[-> [-> _]]]]; [destruct (Nn virtual_plugin); left; reflexivity| |reflexivity].
      destruct (Nn p). right. apply in_flat_map. eauto.
Qed.

(** With types that are apart: a type is made by the plugin of the open library that brings it, the type Virtual is always there,
    and, when missing subsystems are accepted, any other type is virtual. *)
Theorem C75_types : forall ou pol files loaded left t, types_apart (ou_brings ou) files -> load_plugins (ou_opens ou) files = (loaded, left) ->
  forall p, library ou (negb (po_fail_missing pol)) loaded t = Some p <->
    (t = lit "Virtual" /\ p = virtual_plugin) \/ (exists f, In f loaded /\ In (t, p) (ou_brings ou f))
    \/ (po_fail_missing pol = false /\ p = virtual_plugin /\ t <> lit "Virtual" /\ forall f q, In f loaded -> ~ In (t, q) (ou_brings ou f)).
Proof.
  intros ou pol files loaded left t A H p. destruct (C75_loads _ _ _ _ H) as [P _].
  rewrite (library_apart ou (negb (po_fail_missing pol)) loaded t); [rewrite negb_true_iff; reflexivity|].
  intros f f' t0 q q' Hf Hf'. apply A; apply (Permutation_in _ P); apply in_or_app; auto.
Qed.
Print Assumptions C75_types.

(** Then the order of the files does not change what any type is. *)
Theorem C75_types_any_order : forall ou fb files files' loaded left loaded' left' t, monotone (ou_opens ou) -> types_apart (ou_brings ou) files -> Permutation files files' ->
  load_plugins (ou_opens ou) files = (loaded, left) -> load_plugins (ou_opens ou) files' = (loaded', left') ->
  library ou fb loaded t = library ou fb loaded' t.
Proof.
  intros ou fb files files' loaded left loaded' left' t M A P H H'. destruct (C75_any_order _ _ _ _ _ _ _ M P H H') as [S _].
  destruct (C75_loads _ _ _ _ H) as [P1 _].
  assert (types_apart (ou_brings ou) loaded) as A1 by (intros f f' t0 q q' Hf Hf'; apply A; apply (Permutation_in _ P1); apply in_or_app; auto).
  assert (types_apart (ou_brings ou) loaded') as A2 by (intros f f' t0 q q' Hf Hf'; apply A1; apply S; auto).
  pose proof (library_apart ou fb loaded t A1) as L1. pose proof (library_apart ou fb loaded' t A2) as L2.
  assert (forall p, library ou fb loaded t = Some p <-> library ou fb loaded' t = Some p) as E.
  { intros p. rewrite L1, L2. split; (intros [Q|[[f [Hf Hp]]|[Q1 [Q2 [Q3 Q4]]]]]; [auto|right; left; exists f; split; auto; apply S; auto|]);
      right; right; (split; [auto|split; [auto|split; [auto|]]]); intros f q Hf; apply Q4; apply S; auto. }
  destruct (library ou fb loaded t) as [p|] eqn:E1; [symmetry; apply E; reflexivity|]. destruct (library ou fb loaded' t) as [p|] eqn:E2; auto. apply E. reflexivity.
Qed.
Print Assumptions C75_types_any_order.

(** *** An example: the second library needs the first one, the third one cannot be opened. *)
Definition fx_first : str := lit "libfirst.so".
Definition fx_second : str := lit "libsecond.so".
Definition fx_missing : str := lit "libmissing.so".
Definition fx_opens (open : list str) (f : str) : bool :=
  str_eqb f fx_first || (str_eqb f fx_second && existsb (str_eqb fx_first) open).
Definition fx_card : plugin := Plugin [lit "Card"; lit "Device"] [Creator (lit "Control") 1 64] false.
Definition fx_brings (f : str) : list (str * plugin) := if str_eqb f fx_second then [(lit "Card", fx_card)] else [].

Lemma fx_monotone : monotone fx_opens.
Proof.
  intros l l' f I H. unfold fx_opens in *. apply orb_true_iff in H. apply orb_true_iff. destruct H as [H|H]; auto. right. apply andb_true_iff in H. destruct H as [H1 H2].
  rewrite H1. cbn [andb]. apply existsb_exists in H2. destruct H2 as [g [Hg E]]. apply existsb_exists. eauto.
Qed.

Lemma fx_apart : types_apart fx_brings [fx_second; fx_missing; fx_first].
Proof.
  assert (forall f t p, In (t, p) (fx_brings f) -> f = fx_second /\ t = lit "Card" /\ p = fx_card) as K.
  { intros f t p H. unfold fx_brings in H. destruct (str_eqb f fx_second) eqn:E; [|destruct H]. apply str_eqb_eq in E. destruct H as [H|[]]. injection H as <- <-. auto. }
  intros f f' t p p' _ _ H H'. apply K in H. apply K in H'. destruct H as [-> [-> ->]]. destruct H' as [-> [_ ->]]. split; auto. split; auto. discriminate.
Qed.

Example C75_nonvacuous : load_plugins fx_opens [fx_second; fx_missing; fx_first] = ([fx_first; fx_second], [fx_missing]) /\ monotone fx_opens
  /\ types_apart fx_brings [fx_second; fx_missing; fx_first].
Proof. split; [vm_compute; reflexivity|]. split; [exact fx_monotone|exact fx_apart]. Qed.

(** Two libraries that bring the same type: nothing says so, and the order of the files decides which one makes the subsystems. *)
Theorem C75_same_type_refuted : exists ou f1 f2 t p1 p2, monotone (ou_opens ou)
  /\ load_plugins (ou_opens ou) [f1; f2] = ([f1; f2], []) /\ load_plugins (ou_opens ou) [f2; f1] = ([f2; f1], [])
  /\ library ou false [f1; f2] t = Some p1 /\ library ou false [f2; f1] t = Some p2 /\ p1 <> p2.
Proof.
  exists (Outer (fun _ p => Some p) (fun _ => None) (fun _ _ => true) (fun f => [(lit "Card", if str_eqb f (lit "a") then fx_card else virtual_plugin)])
            (fun _ _ => None) no_error (fun _ => true)), (lit "a"), (lit "b"), (lit "Card"), virtual_plugin, fx_card.
  split; [intros l l' f _ H; exact H|]. split; [vm_compute; reflexivity|]. split; [vm_compute; reflexivity|]. split; [vm_compute; reflexivity|]. split; [vm_compute; reflexivity|].
  intros Q. discriminate Q.
Qed.
Print Assumptions C75_same_type_refuted.

(** ** C74: starting from files *)

(** Including a file is the same as writing its root in the place of the include. *)
Theorem C74_includes : forall ou lib fuel nm base d d', nm <> [] -> spliced ou base d d' ->
  load_tree ou lib fuel nm base d = load_system lib (ou_hw ou) fuel nm d'.
Proof. intros. apply tree_spliced; auto. Qed.
Print Assumptions C74_includes.

(** What a start from a configuration file needs, and what it gives. *)
Theorem C74_started : forall ou pol fuel uri cs x nm tuning port plugins structure settings y m,
  ou_doc ou uri = Some x -> configures x nm tuning port plugins structure settings ->
  (start_files ou pol fuel uri cs = Ok (y, m) <->
   exists loaded left u d d' s, load_plugins (ou_opens ou) plugins = (loaded, left) /\ (left = [] \/ po_fail_missing pol = false)
     /\ ou_uri ou uri structure = Some u /\ ou_doc ou u = Some d /\ spliced ou u d d'
     /\ load_system (library ou (negb (po_fail_missing pol)) loaded) (ou_hw ou) fuel nm d' = Ok y
     /\ settings_taken ou pol uri settings y cs s
     /\ start_up y (ou_answers ou y) tuning cs s = Ok m
     /\ (po_no_remote pol = true \/ tuning = false \/ ou_server ou port = true)).
Proof.
  intros ou pol fuel uri cs x nm tuning port plugins structure settings y m Ed Hc.
  assert (nm <> []) as N by apply Hc.
  rewrite (start_unfold ou pol fuel uri cs x nm tuning port plugins structure settings Ed Hc).
  destruct (load_plugins (ou_opens ou) plugins) as [loaded left]. cbn [fst snd]. split.
  - intros H. destruct (po_fail_missing pol && negb (List.length left =? 0)) eqn:El; [discriminate H|].
    destruct (ou_uri ou uri structure) as [u|] eqn:Eu; [|discriminate H]. destruct (ou_doc ou u) as [d|] eqn:Er; [|discriminate H].
    destruct (load_tree ou (library ou (negb (po_fail_missing pol)) loaded) fuel nm u d) as [y0| | |] eqn:Et; try discriminate H. cbn [obind] in H.
    destruct (settings_read ou pol uri settings y0 cs) as [s| | |] eqn:Es; try discriminate H. cbn [obind] in H.
    destruct (start_up y0 (ou_answers ou y0) tuning cs s) as [m0| | |] eqn:Eu0; try discriminate H. cbn [obind] in H.
    destruct (negb (po_no_remote pol) && tuning && negb (ou_server ou port)) eqn:Er0; [discriminate H|]. injection H as <- <-.
    destruct (tree_Ok _ _ _ _ _ _ _ N Et) as [_ [_ [l F]]]. destruct (splice_spliced _ _ _ _ F) as [Sp _].
    exists loaded, left, u, d, (splice d l), s. split; [reflexivity|]. split.
    { destruct (po_fail_missing pol); auto. left. destruct left; auto. discriminate El. }
    split; [reflexivity|]. split; [exact Er|]. split; [exact Sp|]. split; [rewrite <- (tree_spliced _ _ _ _ _ _ _ N Sp); exact Et|]. split; [apply settings_iff; exact Es|]. split; [exact Eu0|].
    destruct (po_no_remote pol); auto. destruct tuning; auto. destruct (ou_server ou port); auto; discriminate Er0.
  - intros [loaded' [left' [u [d [d' [s [Q [Hl [Eu [Er [Sp [Et [Es [Em Hr]]]]]]]]]]]]]]. injection Q as <- <-.
    assert (po_fail_missing pol && negb (List.length left =? 0) = false) as -> by (destruct Hl as [-> | ->]; [apply andb_false_r|reflexivity]).
    rewrite Eu, Er, (tree_spliced _ _ _ _ _ _ _ N Sp), Et. cbn [obind]. apply settings_iff in Es. rewrite Es. cbn [obind]. rewrite Em. cbn [obind].
    assert (negb (po_no_remote pol) && tuning && negb (ou_server ou port) = false) as ->; [|reflexivity].
    destruct Hr as [-> |[-> | ->]]; [reflexivity|rewrite andb_false_r; reflexivity|apply andb_false_r].
Qed.
Print Assumptions C74_started.

(** With good files the start ends, with an instance or refused: never undefined, never aborted.  An instance has a well formed
    system, and all that is proved of the instances holds of it; tuning is allowed as the configuration says. *)
Theorem C74_sound : forall ou pol uri cs x nm tuning port plugins structure settings,
  ou_doc ou uri = Some x -> configures x nm tuning port plugins structure settings -> files_good ou uri structure settings -> crits_ok cs ->
  exists fuel, forall f, fuel <= f -> settled (start_files ou pol f uri cs)
    /\ forall y m, start_files ou pol f uri cs = Ok (y, m) -> system_ok y /\ history y m /\ mg_allowed m = tuning /\ mg_tuning m = false.
Proof.
  intros ou pol uri cs x nm tuning port plugins structure settings Ed Hc [U [G [Pk [An Sx]]]] Ck.
  assert (nm <> []) as N by apply Hc.
  assert (~ In "012"%char nm) as C.
  { destruct Hc as [_ [Hch [-> _]]]. unfold x_attr0. destruct (x_attr (lit "SystemClassName") x) as [v|] eqn:Ev; [apply (Hch _ _ Ev)|intros []]. }
  destruct (load_plugins (ou_opens ou) plugins) as [loaded left] eqn:El.
  set (lib := library ou (negb (po_fail_missing pol)) loaded). assert (keys_limited lib) as K by (apply library_limited; exact Pk).
  destruct (ou_uri ou uri structure) as [u|] eqn:Eu; [|destruct (U _ _ Eu)].
  assert (exists fuel, forall f, fuel <= f -> settled (match ou_doc ou u with None => Err | Some d => load_tree ou lib f nm u d end)
    /\ forall y, match ou_doc ou u with None => Err | Some d => load_tree ou lib f nm u d end = Ok y -> system_ok y) as [fuel Ht].
  { destruct (ou_doc ou u) as [d|] eqn:Er; [|exists 0; intros f _; split; [left; reflexivity|intros y Q; discriminate Q]].
    assert (subsystems_good ou u d) as Gd by (intros c c' Hin Hsp; apply (G u d c c'); auto).
    destruct (tree_settled ou lib nm u d N C U Gd K) as [fuel H]. exists fuel. intros f Hf. split; [auto|]. intros y Hy. exact (tree_system_ok _ _ _ _ _ _ _ N C Gd K Hy). }
  exists fuel. intros f Hf. destruct (Ht f Hf) as [St Ok_]. clear Ht.
  rewrite (start_unfold ou pol f uri cs x nm tuning port plugins structure settings Ed Hc), El. cbn [fst snd]. fold lib. rewrite Eu.
  destruct (po_fail_missing pol && negb (List.length left =? 0)); [split; [left; reflexivity|intros y m Q; discriminate Q]|].
  destruct St as [Q|[y0 Q]]; rewrite Q; cbn [obind]; [split; [left; reflexivity|intros y m Q0; discriminate Q0]|].
  specialize (Ok_ y0 Q).
  destruct (settings_settled ou pol uri settings y0 cs Ok_ Ck U Sx) as [E|[s E]]; rewrite E; cbn [obind]; [split; [left; reflexivity|intros y m Q0; discriminate Q0]|].
  apply settings_iff in E. destruct (taken_file _ _ _ _ _ _ _ E) as [doc Sf].
  assert (List.length (initial_blackboard (sy_root y0)) = footprint (sy_root y0)) as L0 by (unfold initial_blackboard; apply bb_set_size_length).
  destruct (file_loadable y0 cs doc s _ Ok_ Ck L0 Sf) as [Lo _].
  destruct (start_up_inv y0 (ou_answers ou y0) tuning cs s Ok_ (An y0) Lo) as [bb [m0 [_ [Lo2 [El0 ->]]]]]. cbn [obind].
  destruct (negb (po_no_remote pol) && tuning && negb (ou_server ou port)); [split; [left; reflexivity|intros y m Q0; discriminate Q0]|].
  split; [right; eauto|]. intros y m Q0. injection Q0 as <- <-. split; [exact Ok_|]. split; [exact (hi_start y0 tuning cs doc s bb m0 Ck (proj2 (proj2 (proj2 Lo2))) Sf El0)|].
  destruct (load_flags _ _ _ _ _ _ El0) as [T A]. auto.
Qed.
Print Assumptions C74_sound.

(** A document that cannot be read, or is not a configuration, is refused. *)
Theorem C74_not_a_configuration : forall ou pol fuel uri cs,
  (ou_doc ou uri = None \/ exists x, ou_doc ou uri = Some x /\ x_type x <> lit "ParameterFrameworkConfiguration") -> start_files ou pol fuel uri cs = Err.
Proof.
  intros ou pol fuel uri cs [H|[x [H T]]]; unfold start_files, load_configuration; rewrite H; [reflexivity|].
  destruct (str_eqb (x_type x) (lit "ParameterFrameworkConfiguration")) eqn:E; [apply str_eqb_eq in E; contradiction|reflexivity].
Qed.
Print Assumptions C74_not_a_configuration.

Lemma library_more : forall ou loaded t p fb, library ou false loaded t = Some p -> library ou fb loaded t = Some p.
Proof. intros ou loaded t p fb H. unfold library in *. destruct (find _ _); auto. discriminate H. Qed.

Lemma each_more : forall A B (f g : A -> outcome B) l ys, (forall x y, f x = Ok y -> g x = Ok y) -> each f l = Ok ys -> each g l = Ok ys.
Proof.
  intros A B f g l. induction l as [|x l IH]; intros ys H E; cbn [each] in *; [exact E|].
  destruct (f x) as [y| | |] eqn:Ex; try discriminate E. rewrite (H x y Ex). cbn [obind] in *. destruct (each f l) as [zs| | |]; try discriminate E. rewrite (IH zs H eq_refl). exact E.
Qed.

Lemma subsystem_more : forall lib lib' fuel x r, (forall t p, lib t = Some p -> lib' t = Some p) -> load_subsystem lib fuel x = Ok r -> load_subsystem lib' fuel x = Ok r.
Proof.
  intros lib lib' fuel x r H E. unfold load_subsystem in *. destruct (str_eqb (x_type x) (lit "Subsystem")); [|exact E].
  destruct (lib (x_attr0 (lit "Type") x)) as [p|] eqn:Ep; [|discriminate E]. rewrite (H _ _ Ep). exact E.
Qed.

Lemma child_more : forall ou lib lib' fuel base x r, (forall t p, lib t = Some p -> lib' t = Some p) -> load_child ou lib fuel base x = Ok r -> load_child ou lib' fuel base x = Ok r.
Proof.
  intros ou lib lib' fuel base x r H E. unfold load_child in *. destruct (str_eqb (x_type x) (lit "SubsystemInclude")); [|apply (subsystem_more lib); auto].
  destruct (ou_uri ou base (x_attr0 (lit "Path") x)) as [u|]; [|discriminate E]. destruct (ou_doc ou u) as [z|]; [|discriminate E].
  destruct (str_eqb (x_type z) (lit "Subsystem")); [|discriminate E]. apply (subsystem_more lib); auto.
Qed.

Lemma tree_more : forall ou lib lib' fuel nm base x y, (forall t p, lib t = Some p -> lib' t = Some p) -> load_tree ou lib fuel nm base x = Ok y -> load_tree ou lib' fuel nm base x = Ok y.
Proof.
  intros ou lib lib' fuel nm base x y H E. unfold load_tree in *. destruct (str_eqb (x_type x) (lit "SystemClass") && _); [|discriminate E].
  destruct (each (load_child ou lib fuel base) (x_elems x)) as [ys| | |] eqn:E1; try discriminate E.
  rewrite (each_more _ _ _ (load_child ou lib' fuel base) _ _ (fun c r => child_more ou lib lib' fuel base c r H) E1). exact E.
Qed.

(** A start that is accepted is accepted, with the same result, when less is a failure: missing plugins, settings that cannot be
    loaded, no remote interface. *)
Theorem C74_lenient : forall ou pol pol' fuel uri cs r, start_files ou pol fuel uri cs = Ok r ->
  (po_fail_missing pol' = true -> po_fail_missing pol = true) -> (po_fail_settings pol' = true -> po_fail_settings pol = true) ->
  (po_no_remote pol = true -> po_no_remote pol' = true) -> start_files ou pol' fuel uri cs = Ok r.
Proof.
  intros ou pol pol' fuel uri cs r H Hm Hs Hr. unfold start_files in *. destruct (load_configuration ou uri) as [c| | |]; try discriminate H. cbn [obind] in *.
  destruct (child_named (lit "SubsystemPlugins") (cn_children c)) as [sp|]; [|discriminate H]. destruct (str_eqb (ce_kind sp) (lit "SubsystemPlugins")); [|discriminate H].
  destruct (plugin_files sp) as [files| | |]; try discriminate H. cbn [obind] in *. destruct (load_plugins (ou_opens ou) files) as [loaded left]. cbv zeta in *. cbn [fst snd] in *.
  destruct (po_fail_missing pol && negb (List.length left =? 0)) eqn:El; [discriminate H|].
  assert (po_fail_missing pol' && negb (List.length left =? 0) = false) as ->.
  { destruct (po_fail_missing pol'); auto. rewrite (Hm eq_refl) in El. exact El. }
  destruct (load_structure_file ou (library ou (negb (po_fail_missing pol)) loaded) fuel uri c) as [y| | |] eqn:Et; try discriminate H. cbn [obind] in H.
  assert (load_structure_file ou (library ou (negb (po_fail_missing pol')) loaded) fuel uri c = Ok y) as ->.
  { unfold load_structure_file in *. destruct (child_of_kind (lit "StructureDescriptionFileLocation") (cn_children c)) as [l|]; [|discriminate Et].
    destruct (ou_uri ou uri (ce_place l)) as [u|]; [|discriminate Et]. destruct (ou_doc ou u) as [x|]; [|discriminate Et].
    refine (tree_more ou _ _ fuel (cn_name c) u x y _ Et). intros t p Hp. destruct (po_fail_missing pol) eqn:Em.
    - apply library_more. exact Hp.
    - destruct (po_fail_missing pol'); [specialize (Hm eq_refl); discriminate Hm|exact Hp]. }
  cbn [obind]. destruct (load_settings_file ou pol uri c y cs) as [s| | |] eqn:Es; try discriminate H. cbn [obind] in H.
  assert (load_settings_file ou pol' uri c y cs = Ok s) as ->.
  { unfold load_settings_file in *. cbv zeta in *. destruct (child_of_kind (lit "SettingsConfiguration") (cn_children c)) as [g|]; [|exact Es].
    assert (forall s0 : domains, (if po_fail_settings pol then Err else Ok s0) = Ok s -> (if po_fail_settings pol' then Err else Ok s0) = Ok s) as W.
    { intros s0 Q. destruct (po_fail_settings pol); [discriminate Q|]. destruct (po_fail_settings pol'); [specialize (Hs eq_refl); discriminate Hs|exact Q]. }
    destruct (child_of_kind (lit "ConfigurableDomainsFileLocation") (ce_children g)) as [l|]; [|apply W; exact Es].
    destruct (ou_uri ou uri (ce_place l)) as [u|]; [|discriminate Es]. destruct (ou_doc ou u) as [x|]; [|apply W; exact Es].
    destruct (import_all y cs true x (Domains [] [] 0)) as [[b s0]| | |]; try discriminate Es. cbn [obind fst snd] in *. destruct b; [exact Es|apply W; exact Es]. }
  cbn [obind]. destruct (start_up y (ou_answers ou y) (cn_tuning c) cs s) as [m| | |]; try discriminate H. cbn [obind] in *.
  destruct (negb (po_no_remote pol) && cn_tuning c && negb (ou_server ou (cn_port c))) eqn:Er; [discriminate H|].
  assert (negb (po_no_remote pol') && cn_tuning c && negb (ou_server ou (cn_port c)) = false) as ->; [|exact H].
  destruct (po_no_remote pol) eqn:Ep; [rewrite (Hr eq_refl); reflexivity|]. destruct (po_no_remote pol'); [reflexivity|exact Er].
Qed.
Print Assumptions C74_lenient.

(** *** An example: a structure that includes a file, a plugin that needs another one, a settings file *)

Local Open Scope string_scope.
Fixpoint fx_from (s : str) : str := match s with [] => [] | c :: r => if Ascii.eqb c "/" then s else fx_from r end.
(** The folder of a file. *)
Definition fx_folder (s : str) : str := rev (fx_from (rev s)).
Definition fx_uri (base path : str) : option str := Some (fx_folder base ++ path)%list.
Definition fx_config (attrs : list (string * string)) : xnode := el "ParameterFrameworkConfiguration" attrs
  [el "SubsystemPlugins" [] [el "Location" [("Folder", "")] [el "Plugin" [("Name", "libsecond.so")] []; el "Plugin" [("Name", "libfirst.so")] []]];
   XText (lit " ");
   el "StructureDescriptionFileLocation" [("Path", "structure/system.xml")] [];
   el "SettingsConfiguration" [] [el "ConfigurableDomainsFileLocation" [("Path", "settings/domains.xml")] []]].
Definition fx_attrs : list (string * string) := [("SystemClassName", "Audio"); ("ServerPort", "5000"); ("TuningAllowed", "true")].
Definition fx_structure : xnode := el "SystemClass" [("Name", "Audio")] [el "SubsystemInclude" [("Path", "card.xml")] []; sd_sub2].
Definition fx_domains : xnode := el "ConfigurableDomains" [("SystemClassName", "Audio")]
  [el "ConfigurableDomain" [("Name", "Levels"); ("SequenceAware", "false")]
     [el "Configurations" [] [el "Configuration" [("Name", "Default")] [el "CompoundRule" [("Type", "All")] []]];
      el "ConfigurableElements" [] [el "ConfigurableElement" [("Path", "/Audio/policy/level")] []];
      el "Settings" [] [el "Configuration" [("Name", "Default")]
        [el "ConfigurableElement" [("Path", "/Audio/policy/level")] [el "IntegerParameter" [("Name", "level")] [XText (lit "7")]]]]]].
Definition fx_docs (config : xnode) (uri : str) : option xnode :=
  if str_eqb uri (lit "/etc/pf.xml") then Some config
  else if str_eqb uri (lit "/etc/structure/system.xml") then Some fx_structure
  else if str_eqb uri (lit "/etc/structure/card.xml") then Some sd_sub
  else if str_eqb uri (lit "/etc/settings/domains.xml") then Some fx_domains
  else None.
Definition fx (config : xnode) : outer := Outer fx_uri (fx_docs config) fx_opens fx_brings (fun _ _ => None) no_error (fun p => (p =? 5000)%Z).
Definition fx_ou : outer := fx (fx_config fx_attrs).
Definition fx_strict : policy := Policy true true false.
Local Open Scope nat_scope.

Lemma fx_configures : configures (fx_config fx_attrs) (lit "Audio") true 5000 [fx_second; fx_first] (lit "structure/system.xml") (Some (lit "settings/domains.xml")).
Proof.
  split; [reflexivity|]. split; [exact (check_chars (fx_config fx_attrs) eq_refl)|]. split; [reflexivity|]. split; [discriminate|].
  split; [apply attr_bool_Ok; vm_compute; reflexivity|]. split; [apply (attr_num_Ok false 2); [exact (check_chars (fx_config fx_attrs) eq_refl)|vm_compute; reflexivity]|].
  eexists _, _, _. split; [reflexivity|]. split; [reflexivity|]. split; [reflexivity|]. split; [intros l [<-|[]]; reflexivity|]. split; [reflexivity|].
  split; [reflexivity|]. split; [reflexivity|]. split; [discriminate|]. right. eexists _, _, _. split; [reflexivity|]. split; [reflexivity|]. split; [reflexivity|].
  split; [reflexivity|]. split; [reflexivity|]. split; [discriminate|reflexivity].
Qed.

Lemma sub_good : forall c, In c [sd_sub; sd_sub2] -> x_type c = lit "Subsystem" /\ conforms c /\ nested c /\ flat_types c /\ bits_apart c.
Proof.
  assert (forall c, conforms c -> forallb nested_check (below c) = true -> forallb flat_check (below c) = true -> forallb apart_check (below c) = true ->
    nested c /\ flat_types c /\ bits_apart c) as W.
  { intros c Hc H1 H2 H3. split; [apply nested_checked; auto|]. split; [apply flat_checked; auto|apply apart_checked; auto]. }
  intros c [<-|[<-|[]]]; (split; [reflexivity|]); (match goal with |- conforms ?c /\ _ => assert (conforms c) as Hc by (apply conforms_check; vm_compute; reflexivity) end);
    (split; [exact Hc|]); apply W; auto; vm_compute; reflexivity.
Qed.

Lemma fx_good : files_good fx_ou (lit "/etc/pf.xml") (lit "structure/system.xml") (Some (lit "settings/domains.xml")).
Proof.
  split; [intros base path Q; discriminate Q|]. split.
  { intros u d c c' Eu Ed Hc Hs. assert (u = lit "/etc/structure/system.xml") as -> by (vm_compute in Eu; injection Eu as <-; reflexivity).
    assert (d = fx_structure) as -> by (injection Ed as <-; reflexivity). apply sub_good. destruct Hc as [<-|[<-|[]]].
    - destruct Hs as [[Q _]|[_ [_ [w [Ew Er]]]]]; [destruct Q; reflexivity|].
      assert (w = lit "/etc/structure/card.xml") as -> by (vm_compute in Ew; injection Ew as <-; reflexivity). left. injection Er as <-. reflexivity.
    - destruct Hs as [[_ ->]|[Q _]]; [right; left; reflexivity|discriminate Q]. }
  split.
  { intros f t p H. cbn in H. unfold fx_brings in H. destruct (str_eqb f fx_second); [|destruct H]. destruct H as [H|[]]. injection H as <- <-. cbn. lia. }
  split; [intros y o e x bytes _ _ Q; discriminate Q|].
  intros p u x Q Eu Ed. injection Q as <-. assert (u = lit "/etc/settings/domains.xml") as -> by (vm_compute in Eu; injection Eu as <-; reflexivity).
  assert (x = fx_domains) as -> by (injection Ed as <-; reflexivity).
  split; [reflexivity|]. constructor; [|constructor]. split; [reflexivity|]. eexists _, _, _. split; [reflexivity|]. split; [reflexivity|]. split; [reflexivity|].
  split; [right; eexists; split; reflexivity|]. constructor; [|constructor]. split; [reflexivity|]. right. eexists. split; [reflexivity|]. split; [reflexivity|]. constructor. constructor.
Qed.

Example C74_nonvacuous : ou_doc fx_ou (lit "/etc/pf.xml") = Some (fx_config fx_attrs)
  /\ configures (fx_config fx_attrs) (lit "Audio") true 5000 [fx_second; fx_first] (lit "structure/system.xml") (Some (lit "settings/domains.xml"))
  /\ files_good fx_ou (lit "/etc/pf.xml") (lit "structure/system.xml") (Some (lit "settings/domains.xml")) /\ crits_ok []
  /\ spliced fx_ou (lit "/etc/structure/system.xml") fx_structure sd
  /\ exists y m, start_files fx_ou fx_strict 5 (lit "/etc/pf.xml") [] = Ok (y, m) /\ map dm_name (ds_list (mg_doms m)) = [lit "Levels"]
       /\ map e_name (e_children (sy_root y)) = [lit "card"; lit "policy"] /\ get_parameter y (lit "/Audio/policy/level") m = Ok (lit "7").
Proof.
  split; [reflexivity|]. split; [exact fx_configures|]. split; [exact fx_good|]. split; [intros i k Q; destruct i; discriminate Q|]. split.
  - split; [reflexivity|]. split; [reflexivity|]. constructor; [|constructor; [|constructor]].
    + right. split; [reflexivity|]. split; [reflexivity|]. eexists. split; reflexivity.
    + left. split; [discriminate|reflexivity].
  - destruct (start_files fx_ou fx_strict 5 (lit "/etc/pf.xml") []) as [[y m]| | |] eqn:E; [|vm_compute in E; discriminate E..]. exists y, m. split; [reflexivity|].
    assert (K : match start_files fx_ou fx_strict 5 (lit "/etc/pf.xml") [] with
                | Ok (y, m) => Some (map dm_name (ds_list (mg_doms m)), map e_name (e_children (sy_root y)), get_parameter y (lit "/Audio/policy/level") m)
                | _ => None
                end = Some ([lit "Levels"], [lit "card"; lit "policy"], Ok (lit "7"))) by (vm_compute; reflexivity).
    rewrite E in K. injection K as K1 K2 K3. auto.
Qed.

(** The schema lets the port be any positive number; one that does not fit on 16 bits is an exception that nothing catches, even when there
    is to be no remote interface. *)
Theorem C74_port_refuted : exists ou pol uri x, ou_doc ou uri = Some x /\ x_attr (lit "ServerPort") x = Some (lit "65536") /\ po_no_remote pol = true
  /\ forall fuel cs, start_files ou pol fuel uri cs = Abort.
Proof.
  exists (fx (fx_config [("SystemClassName", "Audio"); ("ServerPort", "65536"); ("TuningAllowed", "true")]%string)), (Policy false false true), (lit "/etc/pf.xml"). eexists.
  split; [reflexivity|]. split; [reflexivity|]. split; [reflexivity|]. intros fuel cs. reflexivity.
Qed.
Print Assumptions C74_port_refuted.

(** So is a value of TuningAllowed that is not a boolean. *)
Theorem C74_tuning_refuted : exists ou pol uri x, ou_doc ou uri = Some x /\ x_attr (lit "TuningAllowed") x = Some (lit "yes")
  /\ forall fuel cs, start_files ou pol fuel uri cs = Abort.
Proof.
  exists (fx (fx_config [("SystemClassName", "Audio"); ("ServerPort", "5000"); ("TuningAllowed", "yes")]%string)), (Policy false false true), (lit "/etc/pf.xml"). eexists.
  split; [reflexivity|]. split; [reflexivity|]. intros fuel cs. reflexivity.
Qed.
Print Assumptions C74_tuning_refuted.

(** Without a SystemClassName the structure of a system of any name is accepted; the system has no name. *)
Theorem C74_no_name_refuted : exists ou pol uri x y m, ou_doc ou uri = Some x /\ x_attr (lit "SystemClassName") x = None
  /\ start_files ou pol 5 uri [] = Ok (y, m) /\ e_name (sy_root y) = [].
Proof.
  set (c := el "ParameterFrameworkConfiguration" [("ServerPort", "5000"); ("TuningAllowed", "true")]
    [el "SubsystemPlugins" [] []; el "StructureDescriptionFileLocation" [("Path", "structure/system.xml")] []]).
  destruct (start_files (fx c) (Policy false false true) 5 (lit "/etc/pf.xml") []) as [[y m]| | |] eqn:E; [|vm_compute in E; discriminate E..].
  exists (fx c), (Policy false false true), (lit "/etc/pf.xml"), c, y, m. split; [reflexivity|]. split; [reflexivity|]. split; [exact E|].
  assert (K : match start_files (fx c) (Policy false false true) 5 (lit "/etc/pf.xml") [] with Ok (y, m) => Some (e_name (sy_root y)) | _ => None end = Some []) by (vm_compute; reflexivity).
  rewrite E in K. injection K as K. exact K.
Qed.
Print Assumptions C74_no_name_refuted.

(** An element of another kind in the group of the plugins, or with its name, is used as if it were of the kind expected. *)
Theorem C74_cast_refuted : exists ou ou' pol uri x x', ou_doc ou uri = Some x /\ ou_doc ou' uri = Some x'
  /\ (exists sp c, In sp (x_elems x) /\ x_type sp = lit "SubsystemPlugins" /\ In c (x_elems sp) /\ x_type c = lit "SettingsConfiguration")
  /\ (exists c, In c (x_elems x') /\ x_name c = lit "SubsystemPlugins" /\ x_type c = lit "Location")
  /\ (forall fuel cs, start_files ou pol fuel uri cs = UB) /\ forall fuel cs, start_files ou' pol fuel uri cs = UB.
Proof.
  set (c1 := el "ParameterFrameworkConfiguration" fx_attrs [el "SubsystemPlugins" [] [el "SettingsConfiguration" [] []]]).
  set (c2 := el "ParameterFrameworkConfiguration" fx_attrs [el "Location" [("Name", "SubsystemPlugins")] []]).
  exists (fx c1), (fx c2), fx_strict, (lit "/etc/pf.xml"), c1, c2. split; [reflexivity|]. split; [reflexivity|]. split.
  - eexists _, _. split; [left; reflexivity|]. split; [reflexivity|]. split; [left; reflexivity|reflexivity].
  - split; [eexists; split; [left; reflexivity|]; split; reflexivity|]. split; intros fuel cs; reflexivity.
Qed.
Print Assumptions C74_cast_refuted.
