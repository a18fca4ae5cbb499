(** C85: scenarios and menus of the client simulator. *)
From Coq Require Import List Arith ZArith Bool Ascii String Lia.
From Verif Require Import Base BaseProofs SimModel SimSpec SimProofs.
Import ListNotations.
Local Open Scope nat_scope.

(** ** C85: a scenario *)

(** A scenario whose actions can be played is played to its end.  The configurations are applied once for each object, when the criteria
    that it names have the values it asks for and the others those they had before; the scripts are run in order. *)
Theorem C85_scenario : forall ks scripts gathered actions acts,
  NoDup (map sc_name ks) -> NoDup (map fst gathered) ->
  Forall2 (stands_for gathered) actions acts -> Forall (playable ks scripts) acts ->
  exists cmds, scenario ks scripts gathered actions = (cmds, true) /\
    forall s, runs ks scripts acts s (applied cmds s) (scripts_run cmds).
Proof.
  intros ks scripts gathered actions acts D G F P.
  destruct (resolve_all_stands _ _ _ G F) as (l & E & A). destruct (play_app ks scripts l acts D A P) as (cmds & X & R).
  exists cmds. split; auto. unfold scenario. rewrite E. specialize (X []). rewrite app_nil_r in X. rewrite X. simpl. now rewrite app_nil_r.
Qed.
Print Assumptions C85_scenario.

(** Two criteria, a type of action, a script. *)
Definition sk : list sclass :=
  [ SClass false (lit "Mode") [lit "Normal"; lit "Call"; lit "Cal"]; SClass true (lit "Device") [lit "Speaker"; lit "Headset"] ].
Definition sg : list (str * action) := [ (lit "calling", (t_set, ADict [(lit "Mode", lit "Call")])) ].
Definition sa : list action :=
  [ (t_set, ADict [(lit "Device", lit "Headset Speaker"); (lit "Mode", lit "Normal")]);
    (lit "calling", ADict [(lit "Device", lit "Headset"); (lit "Mode", lit "Normal")]);
    (t_script, AText (lit "play")) ].
Definition sacts : list action :=
  [ (t_set, ADict [(lit "Device", lit "Headset Speaker"); (lit "Mode", lit "Normal")]);
    (t_set, ADict [(lit "Device", lit "Headset"); (lit "Mode", lit "Call")]);
    (t_script, AText (lit "play")) ].

Lemma word_by : forall w, (match w with [] => false | _ => true end) && forallb (fun c => 32 <? nat_of_ascii c) w = true -> word w.
Proof.
  intros w H. apply andb_true_iff in H. destruct H as (A & B). split.
  - now destruct w.
  - intros c I. rewrite forallb_forall in B. apply B in I. now apply Nat.ltb_lt in I.
Qed.

Lemma sdevice : forall vs, vs <> [] -> (forall v, In v vs -> v = lit "Headset" \/ v = lit "Speaker") ->
  exists us, means (SClass true (lit "Device") [lit "Speaker"; lit "Headset"]) (spaced vs) us.
Proof.
  intros vs N H. exists vs. apply MeansMany; auto. intros v I. destruct (H v I) as [-> | ->].
  - split; [ apply word_by; reflexivity | ]. split; [ simpl; auto | intro K; discriminate K ].
  - split; [ apply word_by; reflexivity | ]. split; [ simpl; auto | intro K; discriminate K ].
Qed.

Lemma two_keys : forall (a b : str) (t u : str), str_eqb a b = false -> NoDup (map fst [(a, t); (b, u)]).
Proof.
  intros a b t u H. apply str_eqb_neq in H. simpl. constructor; [ simpl; intuition | ]. constructor; [ simpl; tauto | constructor ].
Qed.

Lemma s_valid : forall vs m, vs <> [] -> (forall v, In v vs -> v = lit "Headset" \/ v = lit "Speaker") ->
  In m [lit "Normal"; lit "Call"; lit "Cal"] -> valid_dict sk [(lit "Device", spaced vs); (lit "Mode", m)].
Proof.
  intros vs m N H I. split; [ discriminate | ]. split; [ now apply two_keys | ].
  intros n text [E | [E | [] ] ]; injection E as <- <-.
  - destruct (sdevice vs N H) as (us & M). exists (SClass true (lit "Device") [lit "Speaker"; lit "Headset"]), us.
    split; [ simpl; auto | ]. split; [ reflexivity | exact M ].
  - exists (SClass false (lit "Mode") [lit "Normal"; lit "Call"; lit "Cal"]), [m].
    split; [ simpl; auto | ]. split; [ reflexivity | ]. apply MeansOne; [ reflexivity | left; exact I ].
Qed.

Example C85_scenario_nonvacuous :
  NoDup (map sc_name sk) /\ NoDup (map fst sg) /\ Forall2 (stands_for sg) sa sacts /\ Forall (playable sk [lit "play"]) sacts /\
  scenario sk [lit "play"] sg sa =
    ( [ LSet (lit "Mode") [lit "Normal"]; LSet (lit "Device") [lit "Headset"; lit "Speaker"]; LApply;
        LSet (lit "Mode") [lit "Call"]; LSet (lit "Device") [lit "Headset"]; LApply; LScript (lit "play") ], true ).
Proof.
  split. { constructor; [ intros [K | []]; discriminate K | ]. constructor; [ intros [] | constructor ]. }
  split. { constructor; [ intros [] | constructor ]. }
  split.
  { constructor; [ constructor | ]. constructor; [ | constructor; [ constructor | constructor ] ].
    apply StandsDefined with (d2 := [(lit "Mode", lit "Call")]).
    - intro K; discriminate K.
    - intro K; discriminate K.
    - simpl; auto.
    - now apply two_keys.
    - intros n text. split.
      + intros [E | [E | []]]; injection E as <- <-.
        * right. split; [ left; reflexivity | ]. intros [K | []]. discriminate K.
        * left. left. reflexivity.
      + intros [ [E | []] | ([E | [E | []]] & K) ].
        * right. left. exact E.
        * left. exact E.
        * injection E as <- <-. exfalso. apply K. left. reflexivity. }
  split; [ | reflexivity ].
  constructor. { split; [ reflexivity | ]. apply (s_valid [lit "Headset"; lit "Speaker"]); [ discriminate | | left; reflexivity ].
    intros v [<- | [<- | []]]; auto. }
  constructor. { split; [ reflexivity | ]. apply (s_valid [lit "Headset"]); [ discriminate | | right; left; reflexivity ].
    intros v [<- | []]; auto. }
  constructor; [ | constructor ]. split; [ reflexivity | left; reflexivity ].
Qed.

(** An object that asks for a value that a criterion does not have, or a script that does not exist, ends the run: what was before it is
    done, nothing of the object itself is sent, and nothing after it. *)
Theorem C85_stops : forall ks scripts gathered before befores action bad after afters,
  NoDup (map sc_name ks) -> NoDup (map fst gathered) ->
  Forall2 (stands_for gathered) before befores -> Forall (playable ks scripts) befores ->
  stands_for gathered action bad -> refused ks scripts bad -> Forall2 (stands_for gathered) after afters ->
  exists cmds, scenario ks scripts gathered (before ++ action :: after) = (cmds, false) /\
    forall s, runs ks scripts befores s (applied cmds s) (scripts_run cmds).
Proof.
  intros ks scripts gathered before befores action bad after afters D G F P S B F2.
  destruct (resolve_all_stands _ _ _ G F) as (l & E & AL).
  destruct (resolve_all_stands gathered (action :: after) (bad :: afters) G) as (l2 & E2 & AL2); [ constructor; auto | ].
  destruct (play_app ks scripts l befores D AL P) as (cmds & X & R).
  exists cmds. split; auto. unfold scenario. rewrite (resolve_all_app _ _ _ _ _ E E2), X.
  inversion AL2 as [ | a b l3 l4 A AL3 ]; subst. cbn [play].
  assert (N : forall x, play_one ks scripts a <> Ok x).
  { intro x. inversion B as [ d k text N I K T E3 | n I E3 ]; subst; destruct a as [ty [d2 | t]]; simpl in A; try contradiction; destruct A as (-> & A).
    - unfold play_one. rewrite str_eqb_refl. unfold test_vector. destruct d2 as [ | e d2 ].
      { exfalso. apply A in I. destruct I. }
      destruct (vector_of ks (e :: d2)) as [v | | | ] eqn:EV; simpl; try discriminate. exfalso.
      eapply (vector_bad (e :: d2) ks k text); eauto. apply (dict_get_same (e :: d2) d); auto.
    - subst t. now apply refused_stops. }
  destruct (play_one ks scripts a) as [x | | | ]; [ exfalso; eapply N; reflexivity | | | ]; simpl; now rewrite app_nil_r.
Qed.
Print Assumptions C85_stops.

Example C85_stops_nonvacuous :
  scenario sk [lit "play"] sg
    [ (lit "calling", ADict [(lit "Device", lit "Headset")]); (t_set, ADict [(lit "Mode", lit "Call"); (lit "Device", lit "Speaker Radio")]);
      (t_script, AText (lit "play")) ] =
  ( [ LSet (lit "Mode") [lit "Call"]; LSet (lit "Device") [lit "Headset"]; LApply ], false ) /\
  refused sk [lit "play"] (t_set, ADict [(lit "Mode", lit "Call"); (lit "Device", lit "Speaker Radio")]) /\
  refused sk [lit "play"] (lit "setCriterion", ADict [(lit "Mode", lit "Mute")]) /\ refused sk [lit "play"] (t_script, AText (lit "stop")).
Proof.
  split; [ reflexivity | ]. split.
  { apply RefusedSet with (k := SClass true (lit "Device") [lit "Speaker"; lit "Headset"]) (text := lit "Speaker Radio").
    - now apply two_keys.
    - right. left. reflexivity.
    - right. left. reflexivity.
    - apply (RefusedMany (SClass true (lit "Device") [lit "Speaker"; lit "Headset"]) [lit "Speaker"; lit "Radio"] (lit "Radio")).
      + reflexivity.
      + intros w [<- | [<- | []]]; apply word_by; reflexivity.
      + intros [K | [K | []]]; discriminate K.
      + right. left. reflexivity.
      + intros [K | [K | []]]; discriminate K. }
  split.
  { apply (RefusedSet sk [lit "play"] [(lit "Mode", lit "Mute")] (SClass false (lit "Mode") [lit "Normal"; lit "Call"; lit "Cal"]) (lit "Mute")).
    - constructor; [ intros [] | constructor ].
    - left. reflexivity.
    - left. reflexivity.
    - constructor; [ reflexivity | | intro K; discriminate K ]. intros [K | [K | [K | []]]]; discriminate K. }
  constructor. intros [K | []]. discriminate K.
Qed.

(** A type of action that is neither known nor defined, or that is defined as a script, is found before anything is launched, wherever
    it stands in the scenario. *)
Theorem C85_undefined : forall ks scripts gathered actions ty v,
  NoDup (map fst gathered) -> In (ty, v) actions -> ty <> lit "setCriterion" -> ty <> lit "script" ->
  (~ In ty (map fst gathered) \/ exists w, In (ty, (lit "script", w)) gathered) ->
  scenario ks scripts gathered actions = ([], false).
Proof.
  intros ks scripts gathered actions ty v D I N1 N2 H. unfold scenario.
  assert (R : forall y, resolve gathered (ty, v) <> Ok y).
  { intro y. unfold resolve. apply str_eqb_neq in N1, N2. change (lit "setCriterion") with t_set in N1. change (lit "script") with t_script in N2.
    rewrite N1, N2. cbn [orb]. destruct (find (fun x : str * action => str_eqb ty (fst x)) gathered) as [ [ty1 [ty2 v2]] | ] eqn:F; [ | discriminate ].
    apply find_some in F. destruct F as (J & E). apply str_eqb_eq in E. simpl in E. subst ty1.
    destruct H as [H | (w & H)].
    - exfalso. apply H. apply in_map_iff. exists (ty, (ty2, v2)); auto.
    - assert (E : (ty2, v2) = (lit "script", w)).
      { clear - D J H. induction gathered as [ | [m u] g IH ]; [ destruct J | ]. simpl in D. inversion D as [ | ? ? A B ]; subst.
        destruct J as [J | J], H as [H | H]; auto.
        - congruence.
        - exfalso. injection J as -> _. apply A. apply in_map_iff. exists (ty, (lit "script", w)); auto.
        - exfalso. injection H as -> _. apply A. apply in_map_iff. exists (ty, (ty2, v2)); auto. }
      injection E as -> ->. change (str_eqb (lit "script") t_script) with true. discriminate. }
  destruct (resolve_all gathered actions) eqn:E; auto. exfalso. eapply resolve_all_bad; eauto.
Qed.
Print Assumptions C85_undefined.

Example C85_undefined_nonvacuous :
  scenario sk [lit "play"] sg (sa ++ [(lit "ringing", ADict [])]) = ([], false) /\ ~ In (lit "ringing") (map fst sg).
Proof. split; [ reflexivity | ]. intros [K | []]. discriminate K. Qed.

(** An object that names no criterion is not one that changes none: it puts every criterion in its default state. *)
Theorem C85_empty_refuted : exists ks cmds s s',
  scenario ks [] [] [(t_set, ADict [])] = (cmds, true) /\ applied cmds s = [s'] /\ s (lit "Mode") = [lit "Call"] /\ s' (lit "Mode") = [lit "0"].
Proof.
  exists sk. eexists. exists (fun n => if str_eqb n (lit "Mode") then [lit "Call"] else []). eexists.
  split; [ reflexivity | ]. split; [ reflexivity | ]. split; reflexivity.
Qed.
Print Assumptions C85_empty_refuted.

(** A criterion that does not exist, a misspelt one, is not reported: the configurations are applied as they are. *)
Theorem C85_unknown_refuted : exists ks n, ~ In n (map sc_name ks) /\
  scenario ks [] [] [(t_set, ADict [(n, lit "Call")])] = ([LApply], true).
Proof.
  exists sk, (lit "mode"). split; [ intros [K | [K | []]]; discriminate K | reflexivity ].
Qed.
Print Assumptions C85_unknown_refuted.

(** ** C85: the menus *)

(** The menu of an exclusive criterion offers the other values, if none of them is part of the spelling of the current one; the entry
    sets that value. *)
Theorem C85_menu_one : forall k v menu, sc_incl k = false ->
  edit_menu (SCrit k (VOne (Some v))) = Ok menu ->
  (forall x a b, In x (sc_allowed k) -> v = a ++ x ++ b -> x = v) ->
  (forall x, In (ESet x) menu <-> In x (sc_allowed k) /\ x <> lit "0" /\ x <> v) /\ In EDefault menu /\
  (forall x, In (ESet x) menu -> do_entry (SCrit k (VOne (Some v))) (ESet x) = Ok (SCrit k (VOne (Some x)))) /\
  do_entry (SCrit k (VOne (Some v))) EDefault = Ok (SCrit k (VOne (Some (lit "0")))).
Proof.
  intros k v menu C H U. injection H as <-.
  assert (A : forall x, In (ESet x) (map ESet (filter (fun x => negb (is_infix x v) && negb (str_eqb x no_value)) (sc_allowed k)) ++ [EDefault]) <->
    In x (sc_allowed k) /\ x <> lit "0" /\ x <> v).
  { intro x. rewrite in_app_iff, in_map_iff. split.
    - intros [ (y & E & I) | [E | []] ]; [ injection E as -> | discriminate E ]. apply filter_In in I. destruct I as (I & E).
      apply andb_true_iff in E. destruct E as (E1 & E2). apply negb_true_iff in E1, E2. apply str_eqb_neq in E2.
      repeat split; auto. intros ->. assert (T : is_infix v v = true) by (apply is_infix_spec; exists [], []; now rewrite app_nil_r). congruence.
    - intros (I & Z & N). left. exists x. split; auto. apply filter_In. split; auto. apply andb_true_iff. rewrite !negb_true_iff. split.
      + destruct (is_infix x v) eqn:E; auto. apply is_infix_spec in E. destruct E as (a & b & E). exfalso. apply N. eapply U; eauto.
      + now apply str_eqb_neq. }
  cbn [cr_class]. split; [ exact A | ]. split; [ apply in_app_iff; right; left; reflexivity | ]. split.
  - intros x I. apply A in I. destruct I as (I & _). simpl. unfold set_current. simpl. apply str_in_spec in I. now rewrite I.
  - simpl. unfold set_current. simpl. now rewrite orb_true_r.
Qed.
Print Assumptions C85_menu_one.

Example C85_menu_one_nonvacuous :
  edit_menu (SCrit (SClass false (lit "Mode") [lit "Normal"; lit "Call"; lit "Cal"]) (VOne (Some (lit "Normal")))) =
    Ok [ESet (lit "Call"); ESet (lit "Cal"); EDefault].
Proof. reflexivity. Qed.

(** The menu of an inclusive criterion offers to set the values that it does not have and to unset those that it has.  Setting a value
    keeps the others, except the default state; unsetting one keeps the others, if there are others. *)
Theorem C85_menu_many : forall k l menu, sc_incl k = true -> edit_menu (SCrit k (VMany l)) = Ok menu ->
  (forall x, In (ESet x) menu <-> In x (sc_allowed k) /\ x <> lit "0" /\ ~ In x l) /\
  (forall x, In (EUnset x) menu <-> In x l) /\
  (forall x, In (ESet x) menu -> word x -> exists l', do_entry (SCrit k (VMany l)) (ESet x) = Ok (SCrit k (VMany l')) /\
     forall v, In v l' <-> v = x \/ (In v l /\ v <> lit "0")) /\
  (forall x y, In (EUnset x) menu -> In y l -> y <> x -> exists l', do_entry (SCrit k (VMany l)) (EUnset x) = Ok (SCrit k (VMany l')) /\
     forall v, In v l' <-> In v l /\ v <> x).
Proof.
  intros k l menu C H. injection H as <-. cbn [cr_class].
  assert (A : forall x, In (ESet x) (map ESet (filter (fun x => negb (str_in x l) && negb (str_eqb x no_value)) (sc_allowed k)) ++ map EUnset l) <->
    In x (sc_allowed k) /\ x <> lit "0" /\ ~ In x l).
  { intro x. rewrite in_app_iff, !in_map_iff. split.
    - intros [ (y & E & I) | (y & E & I) ]; [ injection E as -> | discriminate E ]. apply filter_In in I. destruct I as (I & E).
      apply andb_true_iff in E. destruct E as (E1 & E2). apply negb_true_iff in E1, E2. apply str_eqb_neq in E2. apply str_in_false in E1. auto.
    - intros (I & Z & N). left. exists x. split; auto. apply filter_In. split; auto. apply andb_true_iff. rewrite !negb_true_iff.
      split; [ now apply str_in_false | now apply str_eqb_neq ]. }
  assert (B : forall x, In (EUnset x) (map ESet (filter (fun x => negb (str_in x l) && negb (str_eqb x no_value)) (sc_allowed k)) ++ map EUnset l) <-> In x l).
  { intro x. rewrite in_app_iff, !in_map_iff. split.
    - intros [ (y & E & I) | (y & E & I) ]; [ discriminate E | injection E as -> ]. auto.
    - intro I. right. exists x. auto. }
  split; [ exact A | ]. split; [ exact B | ]. split.
  - intros x I W. apply A in I. destruct I as (I & Z & N). simpl. unfold set_current. simpl.
    assert (PW : py_words x [] = [x]) by (apply (py_words_spaced [x]); intros w [<- | []]; auto). rewrite PW.
    assert (NZ : str_in no_value [x] = false) by (apply str_in_false; intros [K | []]; apply Z; auto). rewrite NZ.
    destruct (add_values_ok (sc_allowed k) [x] (set_remove no_value l)) as (l' & E & L). { intros v [<- | []]. auto. }
    rewrite E. exists l'. split; [ reflexivity | ]. intro v. rewrite L, set_remove_in. simpl. change (lit "0") with no_value. intuition.
  - intros x y I J N. apply B in I. simpl. unfold remove_value. simpl. apply str_in_spec in I. rewrite I.
    destruct (set_remove x l) as [ | z r ] eqn:E.
    + exfalso. assert (K : In y (set_remove x l)) by (apply set_remove_in; auto). rewrite E in K. destruct K.
    + exists (z :: r). split; [ reflexivity | ]. intro v. rewrite <- E, set_remove_in. tauto.
Qed.
Print Assumptions C85_menu_many.

Definition sdev : sclass := SClass true (lit "Device") [lit "Speaker"; lit "Headset"; lit "Bluetooth"].
Example C85_menu_many_nonvacuous :
  edit_menu (SCrit sdev (VMany [lit "Speaker"; lit "Headset"])) = Ok [ESet (lit "Bluetooth"); EUnset (lit "Speaker"); EUnset (lit "Headset")] /\
  do_entry (SCrit sdev (VMany [lit "Speaker"; lit "Headset"])) (EUnset (lit "Speaker")) = Ok (SCrit sdev (VMany [lit "Headset"])).
Proof. split; reflexivity. Qed.

(** A value whose spelling is part of the spelling of the current one is not offered. *)
Theorem C85_menu_refuted : exists k v x menu, sc_incl k = false /\ edit_menu (SCrit k (VOne (Some v))) = Ok menu /\
  In x (sc_allowed k) /\ x <> lit "0" /\ x <> v /\ ~ In (ESet x) menu.
Proof.
  exists (SClass false (lit "Mode") [lit "Normal"; lit "Call"; lit "Cal"]), (lit "Call"), (lit "Cal"). eexists.
  split; [ reflexivity | ]. split; [ reflexivity | ]. split; [ simpl; auto | ].
  split; [ intro K; discriminate K | ]. split; [ intro K; discriminate K | ].
  intro I. vm_compute in I. destruct I as [K | [K | []]]; discriminate K.
Qed.
Print Assumptions C85_menu_refuted.

(** Unsetting the only value of a criterion, which should put it in its default state, ends the program; so does the entry offered
    for the default state itself, from the start. *)
Theorem C85_unset_refuted : (exists k x menu, edit_menu (SCrit k (VMany [x])) = Ok menu /\ In x (sc_allowed k) /\ In (EUnset x) menu /\
    do_entry (SCrit k (VMany [x])) (EUnset x) = Err) /\
  (exists k c menu, default_vector [k] = Ok [c] /\ edit_menu c = Ok menu /\ In (EUnset (lit "0")) menu /\ do_entry c (EUnset (lit "0")) = Err).
Proof.
  split.
  - exists sdev, (lit "Speaker"). eexists. split; [ reflexivity | ]. split; [ simpl; auto | ]. split; [ vm_compute; auto | reflexivity ].
  - exists sdev. eexists. eexists. split; [ reflexivity | ]. split; [ reflexivity | ]. split; [ vm_compute; auto 6 | reflexivity ].
Qed.
Print Assumptions C85_unset_refuted.

(** The entries are those of the time when the menu was opened: the same one twice ends the program. *)
Theorem C85_twice_refuted : exists c c1 x menu, edit_menu c = Ok menu /\ In (EUnset x) menu /\ do_entry c (EUnset x) = Ok c1 /\
  do_entry c1 (EUnset x) = Err.
Proof.
  exists (SCrit sdev (VMany [lit "Speaker"; lit "Headset"])). eexists. exists (lit "Speaker"). eexists.
  split; [ reflexivity | ]. split; [ vm_compute; auto | ]. split; reflexivity.
Qed.
Print Assumptions C85_twice_refuted.

(** A number greater than the last one of the menu ends the program, where a negative one or a word gives a message. *)
Theorem C85_choice_refuted : forall n z, (z > Z.of_nat n)%Z ->
  choose n (Some z) = Err /\ choose n (Some (- z)%Z) = Ok ChMessage /\ choose n None = Ok ChMessage.
Proof.
  intros n z H. unfold choose.
  destruct (z =? Z.of_nat n)%Z eqn:A; [ apply Z.eqb_eq in A; lia | ]. destruct (z <? 0)%Z eqn:B; [ apply Z.ltb_lt in B; lia | ].
  destruct (z <? Z.of_nat n)%Z eqn:C; [ apply Z.ltb_lt in C; lia | ].
  destruct (- z =? Z.of_nat n)%Z eqn:D; [ apply Z.eqb_eq in D; lia | ]. destruct (- z <? 0)%Z eqn:E; [ | apply Z.ltb_ge in E; lia ]. auto.
Qed.
Print Assumptions C85_choice_refuted.

(** Every other number chooses the entry shown beside it, or leaves the menu. *)
Theorem C85_choice : forall (menu : list entry) k, k <= List.length menu ->
  choose (List.length menu) (Some (Z.of_nat k)) = Ok (if k =? List.length menu then ChLeave else ChEntry k).
Proof.
  intros menu k H. unfold choose. destruct (k =? List.length menu) eqn:E.
  - apply Nat.eqb_eq in E. subst. now rewrite Z.eqb_refl.
  - apply Nat.eqb_neq in E. destruct (Z.of_nat k =? Z.of_nat (List.length menu))%Z eqn:A; [ apply Z.eqb_eq in A; lia | ].
    destruct (Z.of_nat k <? 0)%Z eqn:B; [ apply Z.ltb_lt in B; lia | ].
    destruct (Z.of_nat k <? Z.of_nat (List.length menu))%Z eqn:C; [ | apply Z.ltb_ge in C; lia ]. now rewrite Nat2Z.id.
Qed.
Print Assumptions C85_choice.

Example C85_choice_nonvacuous : choose (List.length [ESet (lit "Call"); EDefault]) (Some 1%Z) = Ok (ChEntry 1) /\
  choose (List.length [ESet (lit "Call"); EDefault]) (Some 2%Z) = Ok ChLeave.
Proof. split; reflexivity. Qed.
