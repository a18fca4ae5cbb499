(** Lemmas about the start from files. *)
From Coq Require Import List Arith ZArith Bool Ascii String Permutation Lia.
From Verif Require Import Base BaseProofs TextModel CriterionModel BlackboardModel BlackboardProofs TreeModel TreeSpec SyncModel DomainModel DomainSpec MgrModel MgrSpec MgrSkel LoadModel LoadSpec LoadProofs LoadProps Demo
  XmlModel DomXmlModel DomXmlSpec DomXmlHist DomXmlInv DomainProofs MapModel TypeModel DeclModel DeclSpec DeclProofs DeclSysProofs DeclProps GenModel GenProofs FileModel FileSpec.
Import ListNotations.
Local Open Scope nat_scope.

(** ** Plugins *)

Lemma opening_app : forall opens l b r, opening opens b l -> opening opens (b ++ l) r -> opening opens b (l ++ r).
Proof.
  intros opens l. induction l as [|f l IH]; intros b r H1 H2; cbn [app]; [rewrite app_nil_r in H2; auto|].
  inversion H1; subst. constructor; auto. apply IH; auto. rewrite <- app_assoc. exact H2.
Qed.

(** What a pass does: [l] opened after [loaded], [rem] left. *)
Lemma pass_made : forall opens files loaded, exists l rem, plugin_pass opens loaded files = (loaded ++ l, rem) /\ opening opens loaded l
  /\ Permutation (l ++ rem) files /\ (forall f, In f rem -> exists l1 l2, l = l1 ++ l2 /\ opens (loaded ++ l1) f = false).
Proof.
  intros opens files. induction files as [|f r IH]; intros loaded; cbn [plugin_pass].
  - exists [], []. rewrite app_nil_r. split; [reflexivity|]. split; [constructor|]. split; [constructor|intros f []].
  - destruct (opens loaded f) eqn:E.
    + destruct (IH (loaded ++ [f])) as [l [rem [Ep [O [P F]]]]]. exists (f :: l), rem. rewrite <- app_assoc in Ep. split; [exact Ep|]. split; [constructor; auto|].
      split; [cbn [app]; constructor; exact P|]. intros g Hg. destruct (F g Hg) as [l1 [l2 [-> Eo]]]. exists (f :: l1), l2. split; [reflexivity|]. rewrite <- app_assoc in Eo. exact Eo.
    + destruct (IH loaded) as [l [rem [Ep [O [P F]]]]]. exists l, (f :: rem). rewrite Ep. cbn [fst snd]. split; [reflexivity|]. split; [exact O|].
      split; [rewrite <- Permutation_middle; constructor; exact P|]. intros g [<-|Hg]; [|auto]. exists [], l. split; [reflexivity|]. rewrite app_nil_r. exact E.
Qed.

Lemma loop_made : forall opens fuel files loaded, List.length files <= fuel -> exists l rem, plugin_loop fuel opens loaded files = (loaded ++ l, rem)
  /\ opening opens loaded l /\ Permutation (l ++ rem) files /\ (forall f, In f rem -> opens (loaded ++ l) f = false).
Proof.
  intros opens fuel. induction fuel as [|k IH]; intros files loaded L; (destruct files as [|f0 r0];
    [exists [], []; cbn [plugin_loop]; rewrite app_nil_r; split; [reflexivity|split; [constructor|split; [constructor|intros f []]]]|]); [cbn in L; lia|].
  set (files := f0 :: r0) in *. assert (plugin_loop (S k) opens loaded files = let z := plugin_pass opens loaded files in
    if List.length (snd z) =? List.length files then z else plugin_loop k opens (fst z) (snd z)) as -> by reflexivity.
  destruct (pass_made opens files loaded) as [l [rem [Ep [O [P F]]]]]. rewrite Ep. cbv zeta. cbn [fst snd].
  pose proof (Permutation_length P) as Lp. rewrite app_length in Lp. destruct (List.length rem =? List.length files) eqn:E.
  - apply Nat.eqb_eq in E. assert (l = []) as -> by (destruct l as [|x l]; auto; cbn [List.length] in Lp; lia). exists [], rem. split; [reflexivity|]. split; [exact O|]. split; [exact P|].
    intros f Hf. destruct (F f Hf) as [l1 [l2 [Q Eo]]]. symmetry in Q. apply app_eq_nil in Q. destruct Q as [-> ->]. exact Eo.
  - apply Nat.eqb_neq in E. destruct (IH rem (loaded ++ l)) as [l2 [rem2 [Eq [O2 [P2 F2]]]]]; [lia|]. exists (l ++ l2), rem2. rewrite !app_assoc. split; [exact Eq|].
    split; [apply opening_app; auto|]. split; [|exact F2]. rewrite <- app_assoc. rewrite P2. exact P.
Qed.

Lemma plugins_made : forall opens files, exists l rem, load_plugins opens files = (l, rem) /\ opening opens [] l
  /\ Permutation (l ++ rem) files /\ (forall f, In f rem -> opens l f = false).
Proof. intros opens files. unfold load_plugins. destruct (loop_made opens (List.length files) files [] (le_n _)) as [l [rem H]]. exists l, rem. exact H. Qed.

(** With more open, everything that opens in turn is among what a stuck list has. *)
Lemma opening_incl : forall opens files l rem, monotone opens -> Permutation (l ++ rem) files -> (forall f, In f rem -> opens l f = false) ->
  forall seq b, incl b l -> incl seq files -> opening opens b seq -> incl seq l.
Proof.
  intros opens files l rem M P St seq. induction seq as [|f seq IH]; intros b Ib Is O; [intros f []|]. inversion O as [|b' f' r' E O']; subst.
  assert (In f l) as Hf.
  { assert (In f files) as Hf by (apply Is; left; auto). apply (Permutation_in _ (Permutation_sym P)) in Hf. apply in_app_or in Hf. destruct Hf as [Hf|Hf]; auto.
    specialize (St f Hf). rewrite (M b l f Ib E) in St. discriminate St. }
  intros g [<-|Hg]; auto. apply (IH (b ++ [f])); auto.
  - intros h Hh. apply in_app_or in Hh. destruct Hh as [Hh|[<-|[]]]; auto.
  - intros h Hh. apply Is. right. auto.
Qed.

(** A file that opened in turn opens with everything. *)
Lemma opening_opens : forall opens l b f, monotone opens -> opening opens b l -> In f l -> opens (b ++ l) f = true.
Proof.
  intros opens l. induction l as [|g l IH]; intros b f M O Hf; [destruct Hf|]. inversion O; subst. destruct Hf as [<-|Hf].
  - apply (M b); auto. intros h Hh. apply in_or_app. auto.
  - replace (b ++ g :: l) with ((b ++ [g]) ++ l) by (rewrite <- app_assoc; reflexivity). apply IH; auto.
Qed.

(** ** The configuration *)

Lemma attr_bool_made : forall nm d x v, bool_attr nm d x v -> attr_bool nm d x = Ok v.
Proof.
  intros nm d x v H. unfold attr_bool. destruct H as [[-> ->]|[[-> [->|[->| ->]]]|[-> [->|[->| ->]]]]]; reflexivity.
Qed.

Lemma config_unfold : forall x, is_elem x = true -> config_elem x =
      if str_eqb (x_type x) (lit "Location") then Ok (CElem (x_type x) (x_name x) (x_attr0 (lit "Folder") x) (map x_name (x_elems x)) [])
      else if str_eqb (x_type x) (lit "StructureDescriptionFileLocation") || str_eqb (x_type x) (lit "ConfigurableDomainsFileLocation") then
        match x_attr0 (lit "Path") x with [] => Err | p => Ok (CElem (x_type x) (x_name x) p [] []) end
      else if str_eqb (x_type x) (lit "SubsystemPlugins") || str_eqb (x_type x) (lit "SettingsConfiguration") then
        do cs <- each config_elem (x_elems x); Ok (CElem (x_type x) (x_name x) [] [] cs)
      else if str_eqb (x_type x) (lit "ParameterFrameworkConfiguration") then
        do _ <- attr_bool (lit "TuningAllowed") false x;
        do _ <- attr_num t_uint16 (lit "ServerPort") 0 x;
        do cs <- each config_elem (x_elems x); Ok (CElem (x_type x) [] [] [] cs)
      else Err.
Proof.
  intros [s|t a c] H; [discriminate H|].
  assert (forall c, (fix go (l : list xnode) : outcome (list celem) :=
        match l with
        | [] => Ok []
        | XText _ :: r => go r
        | c :: r => do e <- config_elem c; do es <- go r; Ok (e :: es)
        end) c = each config_elem (filter is_elem c)) as E.
  { clear. induction c as [|[s|t a c0] c IH]; cbn [filter is_elem each]; auto. rewrite IH. reflexivity. }
  cbn [config_elem x_type x_elems]. rewrite E. reflexivity.
Qed.

Lemma typed_elem : forall x k, x_type x = lit k -> k <> EmptyString -> is_elem x = true.
Proof. intros [s|t a c] k H N; auto. destruct k; [contradiction|discriminate H]. Qed.

Lemma config_location : forall x, x_type x = lit "Location" -> config_elem x = Ok (CElem (lit "Location") (x_name x) (x_attr0 (lit "Folder") x) (map x_name (x_elems x)) []).
Proof. intros x H. rewrite (config_unfold x (typed_elem x _ H ltac:(discriminate))). rewrite H. reflexivity. Qed.

Lemma config_path : forall x k p, k = "StructureDescriptionFileLocation"%string \/ k = "ConfigurableDomainsFileLocation"%string -> x_type x = lit k ->
  x_attr (lit "Path") x = Some p -> p <> [] -> config_elem x = Ok (CElem (lit k) (x_name x) p [] []).
Proof.
  intros x k p K H E N. assert (x_attr0 (lit "Path") x = p) as E0 by (unfold x_attr0; rewrite E; reflexivity).
  rewrite (config_unfold x (typed_elem x _ H ltac:(destruct K as [-> | ->]; discriminate))), H, E0.
  assert (str_eqb (lit k) (lit "Location") = false) as -> by (destruct K as [-> | ->]; reflexivity).
  assert (str_eqb (lit k) (lit "StructureDescriptionFileLocation") || str_eqb (lit k) (lit "ConfigurableDomainsFileLocation") = true) as -> by (destruct K as [-> | ->]; reflexivity).
  destruct p; [contradiction|reflexivity].
Qed.

Lemma config_group : forall x k, k = "SubsystemPlugins"%string \/ k = "SettingsConfiguration"%string -> x_type x = lit k ->
  config_elem x = do cs <- each config_elem (x_elems x); Ok (CElem (lit k) (x_name x) [] [] cs).
Proof.
  intros x k K H. rewrite (config_unfold x (typed_elem x _ H ltac:(destruct K as [-> | ->]; discriminate))), H.
  assert (str_eqb (lit k) (lit "Location") = false) as -> by (destruct K as [-> | ->]; reflexivity).
  assert (str_eqb (lit k) (lit "StructureDescriptionFileLocation") || str_eqb (lit k) (lit "ConfigurableDomainsFileLocation") = false) as -> by (destruct K as [-> | ->]; reflexivity).
  assert (str_eqb (lit k) (lit "SubsystemPlugins") || str_eqb (lit k) (lit "SettingsConfiguration") = true) as -> by (destruct K as [-> | ->]; reflexivity).
  reflexivity.
Qed.

Definition conf_location (x : xnode) : celem := CElem (lit "Location") (x_name x) (x_attr0 (lit "Folder") x) (map x_name (x_elems x)) [].

Lemma each_map : forall A B (f : A -> outcome B) (g : A -> B) l, (forall x, In x l -> f x = Ok (g x)) -> each f l = Ok (map g l).
Proof.
  intros A B f g l. induction l as [|x l IH]; intros H; cbn [each map]; [reflexivity|]. rewrite (H x (or_introl eq_refl)). cbn [obind].
  rewrite IH by (intros; apply H; right; auto). reflexivity.
Qed.

Lemma files_located : forall l, (forall x, In x l -> x_type x = lit "Location") -> plugin_files (CElem (lit "SubsystemPlugins") [] [] [] (map conf_location l)) = Ok (flat_map located l).
Proof.
  intros l H. unfold plugin_files. cbn [ce_children].
  rewrite (each_map _ _ location_files (fun c => map (fun n => (match ce_place c with [] => [] | f => f ++ lit "/" end) ++ n) (ce_plugins c))).
  - cbn [omap]. unfold omap. cbn [obind]. f_equal. rewrite map_map. rewrite flat_map_concat_map. f_equal. apply map_ext. intros x. unfold located, conf_location.
    cbn [ce_place ce_plugins]. rewrite map_map. apply map_ext. intros y. destruct (x_attr0 (lit "Folder") x) as [|c f]; [reflexivity|]. rewrite <- app_assoc. reflexivity.
  - intros c Hc. apply in_map_iff in Hc. destruct Hc as [x [<- _]]. reflexivity.
Qed.

(** The configuration that the file gives. *)
Lemma configuration_read : forall ou uri x nm tuning port plugins structure settings,
  ou_doc ou uri = Some x -> configures x nm tuning port plugins structure settings ->
  exists sp st rest, load_configuration ou uri = Ok (Conf nm tuning port (CElem (lit "SubsystemPlugins") [] [] [] sp :: st :: rest))
    /\ plugin_files (CElem (lit "SubsystemPlugins") [] [] [] sp) = Ok plugins
    /\ ce_kind st = lit "StructureDescriptionFileLocation" /\ ce_place st = structure
    /\ match settings with
       | None => rest = []
       | Some p => exists n n', rest = [CElem (lit "SettingsConfiguration") n [] [] [CElem (lit "ConfigurableDomainsFileLocation") n' p [] []]]
       end.
Proof.
  intros ou uri x nm tuning port plugins structure settings Ed [Ht [Hc [-> [_ [Hb [Hp [sp [st [rest [Ee [Hs [Hsn [Hl [-> [Hst [Hpa [Hne Hr]]]]]]]]]]]]]]]]].
  unfold load_configuration. rewrite Ed, Ht. change (str_eqb (lit "ParameterFrameworkConfiguration") (lit "ParameterFrameworkConfiguration")) with true. cbv iota.
  apply attr_bool_Ok in Hb. rewrite Hb. cbn [escaping obind].
  assert (attr_num t_uint16 (lit "ServerPort") 0 x = Ok port) as -> by (apply (attr_num_Ok false 2); auto). cbn [escaping obind].
  rewrite Ee. cbn [each]. rewrite (config_group sp "SubsystemPlugins" (or_introl eq_refl) Hs), Hsn.
  rewrite (each_map _ _ config_elem conf_location) by (intros l Hin; apply config_location; auto). cbn [obind].
  rewrite (config_path st "StructureDescriptionFileLocation" structure (or_introl eq_refl) Hst Hpa Hne). cbn [obind].
  destruct Hr as [[-> ->]|[se [cl [p [-> [Hse [Hcl [Hct [Hcp [Hcn ->]]]]]]]]]].
  - cbn [each obind]. eexists _, _, _. split; [reflexivity|]. split; [apply files_located; auto|]. split; [reflexivity|]. split; reflexivity.
  - cbn [each]. rewrite (config_group se "SettingsConfiguration" (or_intror eq_refl) Hse), Hcl. cbn [each].
    rewrite (config_path cl "ConfigurableDomainsFileLocation" p (or_intror eq_refl) Hct Hcp Hcn). cbn [obind].
    eexists _, _, _. split; [reflexivity|]. split; [apply files_located; auto|]. split; [reflexivity|]. split; [reflexivity|]. eauto.
Qed.

(** ** The structure file *)

Lemma child_spliced : forall ou lib fuel base c c', spliced_child ou base c c' -> load_child ou lib fuel base c = load_subsystem lib fuel c'.
Proof.
  intros ou lib fuel base c c' [[N ->]|[T [T' [u [E1 E2]]]]]; unfold load_child.
  - destruct (str_eqb (x_type c) (lit "SubsystemInclude")) eqn:E; auto. apply str_eqb_eq in E. contradiction.
  - rewrite T, E1, E2, T'. reflexivity.
Qed.

Lemma children_spliced : forall ou lib fuel base l l', Forall2 (spliced_child ou base) l l' -> each (load_child ou lib fuel base) l = each (load_subsystem lib fuel) l'.
Proof.
  intros ou lib fuel base l l' H. induction H as [|c c' l l' Hc _ IH]; cbn [each]; auto. rewrite (child_spliced _ _ _ _ _ _ Hc), IH. reflexivity.
Qed.

Lemma tree_spliced : forall ou lib fuel nm base d d', nm <> [] -> spliced ou base d d' -> load_tree ou lib fuel nm base d = load_system lib (ou_hw ou) fuel nm d'.
Proof.
  intros ou lib fuel nm base d d' N [Et [En F]]. unfold load_tree, load_system. rewrite Et, En, (children_spliced _ _ _ _ _ _ F). destruct nm; [contradiction|]. reflexivity.
Qed.

(** A child is spliced, or its loading fails. *)
Lemma child_dec : forall ou base c, (exists c', spliced_child ou base c c') \/ (forall lib fuel, load_child ou lib fuel base c = Err)
  \/ (ou_uri ou base (x_attr0 (lit "Path") c) = None /\ forall lib fuel, load_child ou lib fuel base c = Abort).
Proof.
  intros ou base c. destruct (str_eqb (x_type c) (lit "SubsystemInclude")) eqn:E.
  - apply str_eqb_eq in E. destruct (ou_uri ou base (x_attr0 (lit "Path") c)) as [u|] eqn:Eu.
    + destruct (ou_doc ou u) as [r|] eqn:Er.
      * destruct (str_eqb (x_type r) (lit "Subsystem")) eqn:Et.
        -- apply str_eqb_eq in Et. left. exists r. right. eauto 6.
        -- right. left. intros. unfold load_child. rewrite E, Eu, Er, Et. reflexivity.
      * right. left. intros. unfold load_child. rewrite E, Eu, Er. reflexivity.
    + right. right. split; auto. intros. unfold load_child. rewrite E, Eu. reflexivity.
  - left. exists c. left. split; auto. intros Q. rewrite Q in E. discriminate E.
Qed.

Lemma each_Ok : forall A B (f : A -> outcome B) l ys, each f l = Ok ys -> Forall2 (fun x y => f x = Ok y) l ys.
Proof.
  intros A B f l. induction l as [|x l IH]; intros ys H; cbn [each] in H; [injection H as <-; constructor|].
  destruct (f x) eqn:E; try discriminate H. cbn [obind] in H. destruct (each f l) eqn:E2; try discriminate H. cbn [obind] in H. injection H as <-. constructor; auto.
Qed.

Lemma children_found : forall ou lib fuel base l ys, each (load_child ou lib fuel base) l = Ok ys -> exists l', Forall2 (spliced_child ou base) l l'.
Proof.
  intros ou lib fuel base l ys H. apply each_Ok in H. induction H as [|c y l ys Hc _ [l' IH]]; [exists []; constructor|].
  destruct (child_dec ou base c) as [[c' Hc']|[N|[_ N]]]; [exists (c' :: l'); constructor; auto| |]; rewrite N in Hc; discriminate Hc.
Qed.

Lemma elems_of_elems : forall l, (forall c, In c l -> is_elem c = true) -> filter is_elem l = l.
Proof. induction l as [|c l IH]; intros H; cbn [filter]; auto. rewrite (H c (or_introl eq_refl)), IH by (intros; apply H; right; auto). reflexivity. Qed.

Lemma spliced_elem : forall ou base c c', is_elem c = true -> spliced_child ou base c c' -> is_elem c' = true.
Proof. intros ou base c c' E [[_ ->]|[_ [T _]]]; auto. apply (typed_elem _ _ T). discriminate. Qed.

Lemma x_elems_elem : forall x c, In c (x_elems x) -> is_elem c = true.
Proof. intros [s|t a c0] c H; [destruct H|]. cbn [x_elems] in H. apply filter_In in H. tauto. Qed.

(** The document with the roots of the included files. *)
Definition splice (d : xnode) (l : list xnode) : xnode := XElem (x_type d) [(lit "Name", x_name d)] l.

Lemma splice_spliced : forall ou base d l, Forall2 (spliced_child ou base) (x_elems d) l -> spliced ou base d (splice d l) /\ x_elems (splice d l) = l.
Proof.
  intros ou base d l F. assert (x_elems (splice d l) = l) as E.
  { cbn [splice x_elems]. apply elems_of_elems. intros c Hc. destruct (Forall2_in_r _ _ _ _ _ _ F Hc) as [c0 [H0 Hs]]. apply (spliced_elem ou base c0); auto. apply (x_elems_elem d); auto. }
  split; auto. unfold spliced. rewrite E. auto.
Qed.

Lemma inside_splice : forall d l x, (forall c, In c l -> is_elem c = true) -> inside (splice d l) x -> x = splice d l \/ exists c, In c l /\ inside c x.
Proof.
  intros d l x E H. inversion H as [x0 Q1 Q2|x0 c z Hc Hi Q1 Q2]; subst; auto. right. exists c. split; auto. change (In c (filter is_elem l)) in Hc. rewrite elems_of_elems in Hc by auto. auto.
Qed.

Lemma splice_good : forall d l, x_type d = lit "SystemClass" -> ~ In "012"%char (x_name d) ->
  (forall c, In c l -> x_type c = lit "Subsystem" /\ conforms c /\ nested c /\ flat_types c /\ bits_apart c) ->
  conforms (splice d l) /\ nested (splice d l) /\ flat_types (splice d l) /\ bits_apart (splice d l).
Proof.
  intros d l T N G. assert (forall c, In c l -> is_elem c = true) as E by (intros c Hc; destruct (G c Hc) as [Tc _]; apply (typed_elem _ _ Tc); discriminate).
  assert (x_type (splice d l) = lit "SystemClass") as T' by exact T.
  split; [|split; [|split]].
  - intros x Hx. destruct (inside_splice d l x E Hx) as [->|[c [Hc Hi]]]; [|apply (proj1 (proj2 (G c Hc))); auto].
    constructor; rewrite ?T'; try (intros Q; discriminate Q). intros a s Ha. unfold splice, x_attr, attr_find in Ha.
    match type of Ha with context [str_eqb ?u ?v] => destruct (str_eqb u v) end; [|discriminate Ha]. injection Ha as <-. exact N.
  - intros x Hx. destruct (inside_splice d l x E Hx) as [->|[c [Hc Hi]]]; [|apply (proj1 (proj2 (proj2 (G c Hc)))); auto]. rewrite T'. split; [|intros Q; discriminate Q].
    intros c Hc. change (In c (filter is_elem l)) in Hc. rewrite elems_of_elems in Hc by auto. rewrite (proj1 (G c Hc)). left. reflexivity.
  - intros t y z Ht Tt Hy Ty Hz. destruct (inside_splice d l t E Ht) as [->|[c [Hc Hi]]]; [rewrite T' in Tt; discriminate Tt|].
    destruct (G c Hc) as [_ [_ [_ [F _]]]]. apply (F t y z); auto.
  - intros y i j c0 d0 pc sc pd sd Hy Ty. destruct (inside_splice d l y E Hy) as [->|[c [Hc Hi]]]; [rewrite T' in Ty; discriminate Ty|].
    destruct (G c Hc) as [_ [_ [_ [_ B]]]]. apply (B y i j c0 d0); auto.
Qed.

(** All the children have a document, or one never loads. *)
Lemma children_dec : forall ou base l, (exists l', Forall2 (spliced_child ou base) l l') \/ (forall lib fuel ys, each (load_child ou lib fuel base) l <> Ok ys).
Proof.
  intros ou base l. induction l as [|c l [[l' IH]|IH]]; [left; exists []; constructor| |right].
  - destruct (child_dec ou base c) as [[c' Hc]|[N|[_ N]]]; [left; exists (c' :: l'); constructor; auto| |]; right; intros lib fuel ys Q; cbn [each] in Q; rewrite N in Q; discriminate Q.
  - intros lib fuel ys Q. cbn [each] in Q. destruct (load_child ou lib fuel base c); try discriminate Q. cbn [obind] in Q.
    destruct (each (load_child ou lib fuel base) l) as [zs| | |] eqn:E; try discriminate Q. apply (IH lib fuel zs). exact E.
Qed.

Definition subsystems_good (ou : outer) (base : str) (d : xnode) : Prop :=
  forall c c', In c (x_elems d) -> spliced_child ou base c c' -> x_type c' = lit "Subsystem" /\ conforms c' /\ nested c' /\ flat_types c' /\ bits_apart c'.

Lemma tree_Ok : forall ou lib fuel nm base d y, nm <> [] -> load_tree ou lib fuel nm base d = Ok y ->
  x_type d = lit "SystemClass" /\ x_name d = nm /\ exists l, Forall2 (spliced_child ou base) (x_elems d) l.
Proof.
  intros ou lib fuel nm base d y N H. unfold load_tree in H. destruct (str_eqb (x_type d) (lit "SystemClass")) eqn:E; [|discriminate H].
  destruct nm as [|c nm]; [contradiction|]. cbn [andb] in H. destruct (str_eqb (x_name d) (c :: nm)) eqn:E2; [|discriminate H].
  apply str_eqb_eq in E. apply str_eqb_eq in E2. split; auto. split; auto. destruct (each (load_child ou lib fuel base) (x_elems d)) as [ys| | |] eqn:E3; try discriminate H.
  apply (children_found ou lib fuel base _ ys E3).
Qed.

Lemma good_spliced : forall ou base d l, subsystems_good ou base d -> Forall2 (spliced_child ou base) (x_elems d) l ->
  forall c, In c l -> x_type c = lit "Subsystem" /\ conforms c /\ nested c /\ flat_types c /\ bits_apart c.
Proof. intros ou base d l G F c Hc. destruct (Forall2_in_r _ _ _ _ _ _ F Hc) as [c0 [H0 Hs]]. apply (G c0 c); auto. Qed.

Lemma tree_system_ok : forall ou lib fuel nm base d y, nm <> [] -> ~ In "012"%char nm -> subsystems_good ou base d -> keys_limited lib ->
  load_tree ou lib fuel nm base d = Ok y -> system_ok y.
Proof.
  intros ou lib fuel nm base d y N C G K H. destruct (tree_Ok _ _ _ _ _ _ _ N H) as [T [Nm [l F]]]. destruct (splice_spliced _ _ _ _ F) as [Sp _].
  rewrite (tree_spliced _ _ _ _ _ _ _ N Sp) in H. rewrite <- Nm in C.
  destruct (splice_good d l T C (good_spliced _ _ _ _ G F)) as [Hc [Hn [Hf Hb]]]. exact (C65_system_ok _ _ _ _ _ _ Hc Hn K Hb H).
Qed.

Lemma tree_settled : forall ou lib nm base d, nm <> [] -> ~ In "012"%char nm -> (forall b p, ou_uri ou b p <> None) -> subsystems_good ou base d -> keys_limited lib ->
  exists fuel, forall f, fuel <= f -> settled (load_tree ou lib f nm base d).
Proof.
  intros ou lib nm base d N C U G K. destruct (str_eqb (x_type d) (lit "SystemClass") && str_eqb (x_name d) nm) eqn:E.
  - apply andb_true_iff in E. destruct E as [E1 E2]. apply str_eqb_eq in E1. apply str_eqb_eq in E2. destruct (children_dec ou base (x_elems d)) as [[l F]|Nv].
    + destruct (splice_spliced _ _ _ _ F) as [Sp _]. rewrite <- E2 in C. destruct (splice_good d l E1 C (good_spliced _ _ _ _ G F)) as [Hc [Hn [Hf _]]].
      destruct (load_system_settled lib (ou_hw ou) nm (splice d l) Hc Hn Hf K) as [fuel H]. exists fuel. intros f Hl. rewrite (tree_spliced _ _ _ _ _ _ _ N Sp). auto.
    + destruct (settled_fuel _ (fun f => load_child ou lib f base) (x_elems d)) as [fuel H].
      { intros c Hc. destruct (child_dec ou base c) as [[c' Hs]|Hn].
        - destruct (G c c' Hc Hs) as [Tc [Hc1 [Hc2 [Hc3 _]]]]. destruct (load_subsystem_settled lib c' Hc1 Hc2 Hc3 Tc) as [n H]. exists n. intros m Hm.
          rewrite (child_spliced _ _ _ _ _ _ Hs). auto.
        - exists 0. intros m _. destruct Hn as [Hn|[Q _]]; [rewrite Hn; left; reflexivity|]. destruct (U _ _ Q). }
      exists fuel. intros f Hl. specialize (H f Hl). pose proof (settled_each _ _ _ _ H) as Hs. unfold load_tree.
      destruct (str_eqb (x_type d) (lit "SystemClass") && _); [|left; reflexivity].
      destruct Hs as [Q|[ys Q]]; [|destruct (Nv lib f ys); exact Q]. rewrite Q. left. reflexivity.
  - exists 0. intros f _. left. unfold load_tree. destruct nm as [|c nm]; [contradiction|]. rewrite E. reflexivity.
Qed.

(** ** The library *)

Lemma library_In : forall ou fb loaded t p, library ou fb loaded t = Some p -> p = virtual_plugin \/ exists f, In f loaded /\ In (t, p) (ou_brings ou f).
Proof.
  intros ou fb loaded t p H. unfold library in H. destruct (find _ _) as [[t' p']|] eqn:E.
  - injection H as <-. apply find_some in E. destruct E as [I E]. cbn [fst snd] in *. apply str_eqb_eq in E. subst t'. apply in_rev in I. destruct I as [Q|I].
    + left. injection Q as _ <-. reflexivity.
    + right. apply in_flat_map in I. exact I.
  - destruct fb; [|discriminate H]. left. injection H as <-. reflexivity.
Qed.

Lemma library_limited : forall ou fb loaded, (forall f t p, In (t, p) (ou_brings ou f) -> List.length (pl_keys p) <= 32) -> keys_limited (library ou fb loaded).
Proof. intros ou fb loaded H t p E. apply library_In in E. destruct E as [->|[f [_ I]]]; [cbn; lia|]. apply (H f t); auto. Qed.

(** ** The settings *)

Definition settings_read (ou : outer) (pol : policy) (uri : str) (settings : option str) (y : system) (cs : list criterion) : outcome domains :=
  match settings with
  | None => Ok (Domains [] [] 0)
  | Some p =>
      match ou_uri ou uri p with
      | None => Abort
      | Some u =>
          match ou_doc ou u with
          | None => if po_fail_settings pol then Err else Ok (Domains [] [] 0)
          | Some x => do z <- import_all y cs true x (Domains [] [] 0); if fst z then Ok (snd z) else if po_fail_settings pol then Err else Ok (snd z)
          end
      end
  end.

Lemma settings_file_read : forall ou pol uri settings nm tuning port rest0 rest y cs,
  (forall c, In c rest0 -> ce_kind c <> lit "SettingsConfiguration") ->
  match settings with
  | None => rest = []
  | Some p => exists n n', rest = [CElem (lit "SettingsConfiguration") n [] [] [CElem (lit "ConfigurableDomainsFileLocation") n' p [] []]]
  end ->
  load_settings_file ou pol uri (Conf nm tuning port (rest0 ++ rest)) y cs = settings_read ou pol uri settings y cs.
Proof.
  intros ou pol uri settings nm tuning port rest0 rest y cs N R. unfold load_settings_file. cbv zeta. cbn [cn_children].
  assert (child_of_kind (lit "SettingsConfiguration") (rest0 ++ rest) = child_of_kind (lit "SettingsConfiguration") rest) as ->.
  { unfold child_of_kind. induction rest0 as [|c r IH]; cbn [app find]; auto. destruct (str_eqb (ce_kind c) (lit "SettingsConfiguration")) eqn:E.
    - apply str_eqb_eq in E. destruct (N c (or_introl eq_refl) E).
    - apply IH. intros c' Hc. apply N. right. auto. }
  destruct settings as [p|].
  - destruct R as [n [n' ->]].
    assert (child_of_kind (lit "SettingsConfiguration") [CElem (lit "SettingsConfiguration") n [] [] [CElem (lit "ConfigurableDomainsFileLocation") n' p [] []]]
      = Some (CElem (lit "SettingsConfiguration") n [] [] [CElem (lit "ConfigurableDomainsFileLocation") n' p [] []])) as -> by reflexivity.
    cbn [ce_children].
    assert (child_of_kind (lit "ConfigurableDomainsFileLocation") [CElem (lit "ConfigurableDomainsFileLocation") n' p [] []]
      = Some (CElem (lit "ConfigurableDomainsFileLocation") n' p [] [])) as -> by reflexivity.
    reflexivity.
  - rewrite R. reflexivity.
Qed.

Lemma settings_iff : forall ou pol uri settings y cs s, settings_read ou pol uri settings y cs = Ok s <-> settings_taken ou pol uri settings y cs s.
Proof.
  intros ou pol uri settings y cs s. unfold settings_read, settings_taken. destruct settings as [p|].
  - destruct (ou_uri ou uri p) as [u|].
    + destruct (ou_doc ou u) as [x|] eqn:Ed.
      * split.
        -- intros H. exists u. split; auto. rewrite Ed. destruct (import_all y cs true x (Domains [] [] 0)) as [[b s']| | |]; try discriminate H. cbn [obind fst snd] in H.
           destruct b; [assert (s' = s) as <- by congruence; eauto|]. destruct (po_fail_settings pol) eqn:Ef; [discriminate H|]. assert (s' = s) as <- by congruence. eauto.
        -- intros [u' [Q H]]. injection Q as <-. rewrite Ed in H. destruct H as [b [-> Hb]]. cbn [obind fst snd]. destruct b; auto. destruct Hb as [Q| ->]; [discriminate Q|auto].
      * split.
        -- intros H. exists u. split; auto. rewrite Ed. destruct (po_fail_settings pol) eqn:Ef; [discriminate H|]. split; congruence.
        -- intros [u' [Q H]]. injection Q as <-. rewrite Ed in H. destruct H as [-> ->]. reflexivity.
    + split; [intros H; discriminate H|]. intros [u [Q _]]. discriminate Q.
  - split; [intros H; injection H; auto|intros ->; reflexivity].
Qed.

Lemma settings_settled : forall ou pol uri settings y cs, system_ok y -> crits_ok cs -> (forall b p, ou_uri ou b p <> None) ->
  (forall p u x, settings = Some p -> ou_uri ou uri p = Some u -> ou_doc ou u = Some x -> domains_shaped x) -> settled (settings_read ou pol uri settings y cs).
Proof.
  intros ou pol uri [p|] y cs Sy C U Sx; [|right; exists (Domains [] [] 0); reflexivity]. unfold settings_read. destruct (ou_uri ou uri p) as [u|] eqn:Eu; [|destruct (U _ _ Eu)].
  destruct (ou_doc ou u) as [x|] eqn:Ed; [|destruct (po_fail_settings pol); [left; reflexivity|right; eauto]].
  destruct (import_all_shaped y cs x (Domains [] [] 0) Sy C (no_domains_ok y) (Sx p u x eq_refl Eu Ed)) as [b [s ->]]. cbn [obind fst snd].
  destruct b; [right; eauto|]. destruct (po_fail_settings pol); [left; reflexivity|right; eauto].
Qed.

Lemma taken_file : forall ou pol uri settings y cs s, settings_taken ou pol uri settings y cs s -> exists doc, settings_file y cs doc s.
Proof.
  intros ou pol uri [p|] y cs s H; cbn [settings_taken] in H; [|exists None; exact H]. destruct H as [u [_ H]]. destruct (ou_doc ou u) as [x|].
  - destruct H as [b [H _]]. exists (Some x). exists b. exact H.
  - exists None. apply H.
Qed.

(** ** The start *)

Lemma start_unfold : forall ou pol fuel uri cs x nm tuning port plugins structure settings,
  ou_doc ou uri = Some x -> configures x nm tuning port plugins structure settings ->
  start_files ou pol fuel uri cs =
    (if po_fail_missing pol && negb (List.length (snd (load_plugins (ou_opens ou) plugins)) =? 0) then Err
     else
       do y <- match ou_uri ou uri structure with
               | None => Abort
               | Some u => match ou_doc ou u with None => Err | Some d => load_tree ou (library ou (negb (po_fail_missing pol)) (fst (load_plugins (ou_opens ou) plugins))) fuel nm u d end
               end;
       do s <- settings_read ou pol uri settings y cs;
       do m <- start_up y (ou_answers ou y) tuning cs s;
       if negb (po_no_remote pol) && tuning && negb (ou_server ou port) then Err else Ok (y, m)).
Proof.
  intros ou pol fuel uri cs x nm tuning port plugins structure settings Ed Hc.
  destruct (configuration_read ou uri x nm tuning port plugins structure settings Ed Hc) as [sp [st [rest [El [Ep [Ks [Ps R]]]]]]].
  assert (forall y, load_settings_file ou pol uri (Conf nm tuning port (CElem (lit "SubsystemPlugins") [] [] [] sp :: st :: rest)) y cs = settings_read ou pol uri settings y cs) as Es.
  { intros y. apply (settings_file_read ou pol uri settings nm tuning port [CElem (lit "SubsystemPlugins") [] [] [] sp; st] rest y cs); [|exact R].
    intros c [<-|[<-|[]]]; [cbn [ce_kind]; discriminate|rewrite Ks; discriminate]. }
  unfold start_files. rewrite El. cbn [obind cn_children cn_tuning cn_port].
    assert (child_named (lit "SubsystemPlugins") (CElem (lit "SubsystemPlugins") [] [] [] sp :: st :: rest) = Some (CElem (lit "SubsystemPlugins") [] [] [] sp)) as -> by reflexivity.
    change (str_eqb (ce_kind (CElem (lit "SubsystemPlugins") [] [] [] sp)) (lit "SubsystemPlugins")) with true. cbv iota. rewrite Ep. cbn [obind]. cbv zeta.
    assert (load_structure_file ou (library ou (negb (po_fail_missing pol)) (fst (load_plugins (ou_opens ou) plugins))) fuel uri
      (Conf nm tuning port (CElem (lit "SubsystemPlugins") [] [] [] sp :: st :: rest)) = match ou_uri ou uri structure with
               | None => Abort
               | Some u => match ou_doc ou u with None => Err | Some d => load_tree ou (library ou (negb (po_fail_missing pol)) (fst (load_plugins (ou_opens ou) plugins))) fuel nm u d end
               end) as ->.
    { unfold load_structure_file. cbn [cn_children cn_name].
      assert (child_of_kind (lit "StructureDescriptionFileLocation") (CElem (lit "SubsystemPlugins") [] [] [] sp :: st :: rest) = Some st) as ->.
      { unfold child_of_kind. cbn [find]. change (str_eqb (ce_kind (CElem (lit "SubsystemPlugins") [] [] [] sp)) (lit "StructureDescriptionFileLocation")) with false. cbv iota.
        rewrite Ks. reflexivity. }
      rewrite Ps. reflexivity. }
  match goal with |- context [load_plugins ?o ?f] => destruct (load_plugins o f) as [l r] end. cbn [fst snd].
  destruct (po_fail_missing pol && negb (List.length r =? 0)); [reflexivity|].
  match goal with |- obind ?e _ = _ => destruct e as [y| | |]; cbn [obind]; auto end. rewrite Es. reflexivity.
Qed.
