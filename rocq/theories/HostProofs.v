(** Proofs: a configuration file adapted for the host. *)
From Coq Require Import List Arith ZArith Bool Ascii String Lia.
From Verif Require Import Base BaseProofs TextModel CriterionModel TreeModel SyncModel DomainModel MgrModel LoadModel XmlModel DomXmlModel MapModel TypeModel DeclModel DeclSpec FileModel FileSpec HostModel HostSpec.
Import ListNotations.
Local Open Scope nat_scope.

Lemma find_set : forall nm v l n, attr_find n (set_attr nm v l) = if str_eqb nm n then Some v else attr_find n l.
Proof.
  intros nm v l n. induction l as [|[k w] l IH]; cbn [set_attr attr_find]; [reflexivity|]. destruct (str_eqb k nm) eqn:E; cbn [attr_find].
  - apply str_eqb_eq in E. subst k. destruct (str_eqb nm n); reflexivity.
  - rewrite IH. destruct (str_eqb k n) eqn:F; [|reflexivity]. apply str_eqb_eq in F. subst k. destruct (str_eqb nm n) eqn:G; [|reflexivity]. apply str_eqb_eq in G. subst nm. rewrite str_eqb_refl in E. discriminate.
Qed.

Lemma attrs_adapted : forall port path type a nm, host_attr port path type nm (attr_find nm a) (attr_find nm (host_attrs port path type a)).
Proof.
  intros port path type a nm. unfold host_attrs. destruct (str_eqb type (lit "ParameterFrameworkConfiguration")) eqn:E.
  - apply str_eqb_eq in E. subst type. rewrite find_set. destruct (str_eqb (lit "TuningAllowed") nm) eqn:T; [apply str_eqb_eq in T; subst nm; constructor|].
    assert (~ (lit "ParameterFrameworkConfiguration" = lit "ParameterFrameworkConfiguration" /\ nm = lit "TuningAllowed")) as N1 by (intros [_ ->]; rewrite str_eqb_refl in T; discriminate).
    assert (~ (lit "ParameterFrameworkConfiguration" = lit "StructureDescriptionFileLocation" /\ nm = lit "Path")) as N3 by (intros [H _]; discriminate H).
    destruct port as [p|]; [|apply ha_same; auto; intros H; contradiction]. rewrite find_set. destruct (str_eqb (lit "ServerPort") nm) eqn:S; [apply str_eqb_eq in S; subst nm; apply ha_port; reflexivity|].
    apply ha_same; auto. intros _ [_ ->]. rewrite str_eqb_refl in S. discriminate.
  - assert (type <> lit "ParameterFrameworkConfiguration") as Nt by (intros ->; rewrite str_eqb_refl in E; discriminate).
    destruct (str_eqb type (lit "StructureDescriptionFileLocation")) eqn:F.
    + apply str_eqb_eq in F. subst type. destruct path as [d|]; [|apply ha_same; [intros [H _]; auto|intros _ [H _]; auto|intros H; contradiction]].
      rewrite find_set. destruct (str_eqb (lit "Path") nm) eqn:G; [apply str_eqb_eq in G; subst nm; apply ha_path; reflexivity|].
      apply ha_same; [intros [H _]; auto|intros _ [H _]; auto|intros _ [_ ->]; rewrite str_eqb_refl in G; discriminate].
    + apply ha_same; [intros [H _]; auto|intros _ [H _]; auto|intros _ [-> _]; rewrite str_eqb_refl in F; discriminate].
Qed.

Lemma deleted_gone : forall x, deleted x = true <-> gone x.
Proof. intros x. unfold deleted, gone. rewrite orb_true_iff, !str_eqb_eq. reflexivity. Qed.

Fixpoint host_list (port path : option str) (l : list xnode) : list xnode :=
  match l with [] => [] | c :: r => if deleted c then host_list port path r else host_elem port path c :: host_list port path r end.

Lemma host_unfold : forall port path t a c, host_elem port path (XElem t a c) = XElem t (host_attrs port path t a) (host_list port path c).
Proof. intros port path t a c. cbn [host_elem]. f_equal. induction c as [|x c IH]; [reflexivity|]. cbn [host_list]. rewrite <- IH. reflexivity. Qed.

Fixpoint host_adapted (port path : option str) (x : xnode) : adapted port path x (host_elem port path x).
Proof.
  destruct x as [s|t a c]; [constructor|]. rewrite host_unfold. apply ad_elem; [intros nm; apply attrs_adapted|].
  induction c as [|x c IH]; cbn [host_list]; [constructor|]. destruct (deleted x) eqn:E.
  - apply aa_gone; [apply deleted_gone; exact E|exact IH].
  - apply aa_kept; [|apply host_adapted|exact IH]. intros G. apply deleted_gone in G. rewrite G in E. discriminate.
Qed.

(** ** What stays *)

Lemma adapted_type : forall port path x x', adapted port path x x' -> x_type x' = x_type x /\ is_elem x' = is_elem x.
Proof. intros port path x x' H. destruct H; auto. Qed.

Lemma adapted_attr : forall port path x x', adapted port path x x' -> forall nm, is_elem x = true -> host_attr port path (x_type x) nm (x_attr nm x) (x_attr nm x').
Proof. intros port path x x' H nm E. destruct H as [s|t a a' c c' H _]; [discriminate|]. apply H. Qed.

Lemma adapted_elems : forall port path x x', adapted port path x x' -> all_adapted port path (x_elems x) (x_elems x').
Proof.
  intros port path x x' H. destruct H as [s|t a a' c c' _ H]; [constructor|]. unfold x_elems. cbn [x_content].
  induction H as [|x l l' G H IH|x x' l l' N A H IH]; [constructor| |]; cbn [filter].
  - destruct x as [s|t0 a0 c0]; [exact IH|]. cbn [is_elem]. apply aa_gone; assumption.
  - destruct (adapted_type _ _ _ _ A) as [_ ->]. destruct (is_elem x); [apply aa_kept; assumption|exact IH].
Qed.

Lemma elems_elem : forall x c, In c (x_elems x) -> is_elem c = true.
Proof. intros x c I. apply filter_In in I. apply I. Qed.

(** ** The configuration *)

Lemma all_gone : forall port path l l', all_adapted port path l l' -> (forall x, In x l -> gone x) -> l' = [].
Proof. intros port path l l' H. induction H as [|x l l' G H IH|x x' l l' N A H IH]; intros F; [reflexivity|apply IH; intros y I; apply F; right; exact I|]. destruct (N (F x (or_introl eq_refl))). Qed.

Lemma not_gone : forall x, x_type x <> lit "Location" -> x_type x <> lit "SettingsConfiguration" -> ~ gone x.
Proof. intros x A B [H|H]; auto. Qed.

Lemma still_configures : forall port path x x' nm tuning pt plugins structure settings, configures x nm tuning pt plugins structure settings -> adapted port path x x' ->
  forall pt', (match port with None => pt' = pt | Some p => ~ In "012"%char p /\ forall y, x_attr (lit "ServerPort") y = Some p -> int_attr false 2 (lit "ServerPort") 0 y pt' end) ->
  configures x' nm true pt' [] (match path with Some d => d ++ lit "/" ++ structure | None => structure end) None.
Proof.
  intros port path x x' nm tuning pt plugins structure settings [Tx [Nl [En [Nn [_ [Hp [sp [st [rest [El [Tsp [Nsp [Lsp [_ [Tst [Pst [Nst Hr]]]]]]]]]]]]]]]]] A pt' Hpt.
  destruct (adapted_type _ _ _ _ A) as [Tx' _]. assert (is_elem x = true) as Ex by (destruct x; [discriminate Tx|reflexivity]).
  pose proof (adapted_attr _ _ _ _ A) as At. rewrite Tx in At.
  assert (Hsame : forall n, n <> lit "TuningAllowed" -> n <> lit "ServerPort" -> x_attr n x' = x_attr n x).
  { intros n N1 N2. specialize (At n Ex). remember (lit "ParameterFrameworkConfiguration") as t eqn:Et. destruct At; try reflexivity; try contradiction. discriminate Et. }
  split; [rewrite Tx'; exact Tx|]. split.
  { intros a s Ha. specialize (At a Ex). rewrite Ha in At. remember (x_attr a x) as b eqn:Eb. remember (Some s) as s' eqn:Es. remember (lit "ParameterFrameworkConfiguration") as t eqn:Et.
    destruct At as [b0|b0 p Ep|b0 d Ed|t0 n0 b0 _ _ _].
    - injection Es as <-. vm_compute. intuition discriminate.
    - injection Es as <-. rewrite Ep in Hpt. apply Hpt.
    - discriminate Et.
    - apply (Nl n0 s). rewrite <- Eb. exact Es. }
  split; [unfold x_attr0; rewrite Hsame by discriminate; exact En|]. split; [exact Nn|]. split.
  { right. left. split; [reflexivity|]. right. left. specialize (At (lit "TuningAllowed") Ex). remember (lit "TuningAllowed") as n eqn:Et. remember (lit "ParameterFrameworkConfiguration") as t eqn:Ett. remember (x_attr n x) as b eqn:Eb. remember (x_attr n x') as b' eqn:Eb'.
    destruct At as [b0|b0 p Ep|b0 d Ed|t0 n0 b0 N _ _]; [reflexivity|discriminate Et|discriminate Et|]. exfalso. apply N. auto. }
  split.
  { specialize (At (lit "ServerPort") Ex). remember (lit "ServerPort") as n eqn:Et. remember (lit "ParameterFrameworkConfiguration") as t eqn:Ett. remember (x_attr n x) as b eqn:Eb. remember (x_attr n x') as b' eqn:Eb'.
    destruct At as [b0|b0 p Ep|b0 d Ed|t0 n0 b0 _ N _]; [discriminate Et| |discriminate Et|].
    - rewrite Ep in Hpt. apply (proj2 Hpt). symmetry. exact Eb'.
    - subst n0. destruct port as [p|]; [exfalso; apply N; [discriminate|auto]|]. rewrite Hpt. unfold int_attr in Hp |- *. rewrite <- Eb'. rewrite Eb. exact Hp. }
  pose proof (adapted_elems _ _ _ _ A) as Ae. rewrite El in Ae.
  inversion Ae as [|? ? ? G _|? sp' ? l1 N1 A1 K1 Q1 Q2]; subst; [destruct G as [G|G]; rewrite Tsp in G; discriminate G|].
  inversion K1 as [|? ? ? G _|? st' ? l2 N2 A2 K2 Q3 Q4]; subst; [destruct G as [G|G]; rewrite Tst in G; discriminate G|].
  assert (l2 = []) as ->.
  { apply (all_gone _ _ _ _ K2). destruct Hr as [[-> _]|[se [cl [q [-> [Ts _]]]]]]; [intros y []|]. intros y [<-|[]]. right. exact Ts. }
  assert (is_elem sp = true) as Esp by (apply (elems_elem x); rewrite El; left; reflexivity). assert (is_elem st = true) as Est by (apply (elems_elem x); rewrite El; right; left; reflexivity).
  exists sp', st', []. split; [reflexivity|]. destruct (adapted_type _ _ _ _ A1) as [Ts1 _]. destruct (adapted_type _ _ _ _ A2) as [Ts2 _].
  split; [rewrite Ts1; exact Tsp|]. split.
  { unfold x_name, x_attr0 in *. pose proof (adapted_attr _ _ _ _ A1 (lit "Name") Esp) as Q. remember (lit "Name") as n eqn:E1. remember (x_type sp) as t eqn:E2. remember (x_attr n sp) as b eqn:Eb. remember (x_attr n sp') as b' eqn:Eb'.
    destruct Q; try discriminate E1. exact Nsp. }
  assert (x_elems sp' = []) as Esp' by (apply (all_gone _ _ _ _ (adapted_elems _ _ _ _ A1)); intros l I; left; auto). rewrite Esp'.
  split; [intros l []|]. split; [reflexivity|]. split; [rewrite Ts2; exact Tst|].
  assert (x_attr (lit "Path") st' = Some (match path with Some d => d ++ lit "/" ++ structure | None => structure end)) as Pst'.
  { pose proof (adapted_attr _ _ _ _ A2 (lit "Path") Est) as Q. rewrite Tst, Pst in Q. remember (lit "Path") as n eqn:E1. remember (lit "StructureDescriptionFileLocation") as t eqn:E2. remember (Some structure) as b eqn:Eb. remember (x_attr n st') as b' eqn:Eb'.
    destruct Q as [b0|b0 p Ep|b0 d Ed|t0 n0 b0 _ _ N]; [discriminate E1|discriminate E1| |].
    - rewrite Ed. subst b0. reflexivity.
    - destruct path as [d|]; [exfalso; apply N; [discriminate|auto]|]. subst b0. reflexivity. }
  split; [exact Pst'|]. split; [destruct path as [d|]; [intros H; apply app_eq_nil in H; destruct H as [_ H]; discriminate H|exact Nst]|]. left. auto.
Qed.
