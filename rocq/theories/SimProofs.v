(** Proofs about the client simulator. *)
From Coq Require Import List Arith ZArith Bool Ascii String Lia.
From Verif Require Import Base BaseProofs SimModel SimSpec.
Import ListNotations.
Local Open Scope nat_scope.

Lemma str_in_spec : forall x l, str_in x l = true <-> In x l.
Proof.
  intros. unfold str_in. rewrite existsb_exists. split.
  - intros (y & I & E). apply str_eqb_eq in E. subst; auto.
  - intro I. exists x. split; auto. apply str_eqb_refl.
Qed.
Lemma str_in_false : forall x l, str_in x l = false <-> ~ In x l.
Proof. intros. rewrite <- str_in_spec. destruct (str_in x l); split; congruence. Qed.

Lemma not_blank : forall c, 32 < nat_of_ascii c -> is_blank c = false.
Proof.
  intros c H. destruct (is_blank c) eqn:E; auto. unfold is_blank in E. apply existsb_exists in E. destruct E as (d & I & E).
  apply Ascii.eqb_eq in E. subst d. simpl in I. repeat (destruct I as [<- | I]; [ vm_compute in H; lia | ]). destruct I.
Qed.

Lemma py_words_app : forall w r cur, (forall c, In c w -> 32 < nat_of_ascii c) -> py_words (w ++ r) cur = py_words r (cur ++ w).
Proof.
  induction w as [ | a w IH ]; intros r cur H; simpl.
  - now rewrite app_nil_r.
  - rewrite not_blank by (apply H; simpl; auto). rewrite IH by (intros; apply H; simpl; auto). now rewrite <- app_assoc.
Qed.

Lemma py_words_spaced : forall ws, (forall w, In w ws -> word w) -> py_words (spaced ws) [] = ws.
Proof.
  induction ws as [ | w r IH ]; intro H; auto.
  destruct (H w) as (N & W); [ simpl; auto | ].
  destruct r as [ | w2 r ].
  - simpl. rewrite <- (app_nil_r w) at 1. rewrite py_words_app by auto. simpl. destruct w; congruence.
  - change (spaced (w :: w2 :: r)) with (w ++ " "%char :: spaced (w2 :: r)). rewrite py_words_app by auto.
    change ([] ++ w) with w.
    change (py_words (" "%char :: spaced (w2 :: r)) w) with (match w with [] => py_words (spaced (w2 :: r)) [] | _ => w :: py_words (spaced (w2 :: r)) [] end).
    rewrite IH by (intros; apply H; simpl; auto). destruct w; congruence.
Qed.

Lemma set_add_in : forall x l v, In v (set_add x l) <-> v = x \/ In v l.
Proof.
  intros. unfold set_add. destruct (str_in x l) eqn:E.
  - apply str_in_spec in E. split; auto. intros [-> | ]; auto.
  - rewrite in_app_iff. simpl. intuition.
Qed.
Lemma set_remove_in : forall x l v, In v (set_remove x l) <-> v <> x /\ In v l.
Proof.
  intros. unfold set_remove. rewrite filter_In, negb_true_iff, str_eqb_neq. intuition.
Qed.

Lemma add_values_ok : forall allowed ws cur, (forall v, In v ws -> In v allowed /\ v <> no_value) ->
  exists l, add_values allowed ws cur = Ok l /\ forall v, In v l <-> In v cur \/ In v ws.
Proof.
  induction ws as [ | w r IH ]; intros cur H; simpl.
  - exists cur. split; auto. intuition.
  - destruct (H w) as (A & N); [ simpl; auto | ]. apply str_in_spec in A. rewrite A. apply str_eqb_neq in N. rewrite N. simpl.
    destruct (IH (set_add w cur)) as (l & E & L); [ intros; apply H; simpl; auto | ].
    exists l. split; auto. intro v. rewrite L, set_add_in. intuition.
Qed.

Lemma set_means : forall k text vs, means k text vs ->
  exists c a, set_current (new_crit k) text = Ok c /\ cr_class c = k /\ crit_args c = Ok a /\ same_values a vs.
Proof.
  intros k text vs M. unfold set_current, new_crit. inversion M as [ v I H E1 E2 | us I N H E1 E2 | ws I Z W E1 E2 ]; subst; simpl; rewrite I.
  - exists (SCrit k (VOne (Some text))), [text].
    assert (E : str_in text (sc_allowed k) || str_eqb text no_value = true).
    { apply orb_true_iff. destruct H as [H | ->]; [ left; now apply str_in_spec | right; apply str_eqb_refl ]. }
    rewrite E. repeat split; auto.
  - rewrite py_words_spaced by (intros; now apply H).
    assert (E : str_in no_value vs = false) by (apply str_in_false; intro K; now apply H in K as (_ & _ & K)).
    rewrite E. destruct (add_values_ok (sc_allowed k) vs (set_remove no_value [])) as (l & A & L).
    { intros v K. apply H in K. tauto. }
    rewrite A. simpl. destruct l as [ | x l ].
    + destruct vs as [ | v vs ]; [ congruence | ]. exfalso. apply (L v). simpl; auto.
    + exists (SCrit k (VMany (x :: l))), (x :: l). repeat split; auto; intro K; [ apply L in K; destruct K as [ [] | ]; auto | apply L; auto ].
  - rewrite py_words_spaced by auto. apply str_in_spec in Z. change (lit "0") with no_value in Z. rewrite Z.
    exists (SCrit k (VMany [no_value])), [no_value]. repeat split; auto.
Qed.

Lemma dict_get_in : forall n d t, dict_get n d = Some t -> In (n, t) d.
Proof.
  intros n d t H. unfold dict_get in H. destruct (find _ d) as [ [m u] | ] eqn:F; [ | discriminate H ].
  apply find_some in F. destruct F as (I & E). apply str_eqb_eq in E. simpl in *. subst. injection H as ->. auto.
Qed.
Lemma dict_get_none : forall n d, dict_get n d = None <-> ~ In n (map fst d).
Proof.
  intros n d. unfold dict_get. induction d as [ | [m u] d IH ]; simpl; [ tauto | ].
  destruct (str_eqb n m) eqn:E; simpl.
  - apply str_eqb_eq in E. subst. split; [ discriminate | tauto ].
  - apply str_eqb_neq in E. rewrite IH. intuition.
Qed.

(** The same keys with the same texts. *)
Definition same_dict (d d' : dict) : Prop := forall n t, In (n, t) d <-> In (n, t) d'.
Lemma nodup_fst : forall (d : dict) n t u, NoDup (map fst d) -> In (n, t) d -> In (n, u) d -> t = u.
Proof.
  induction d as [ | [m w] d IH ]; intros n t u D I J; [ destruct I | ]. simpl in D. inversion D as [ | ? ? A B ]; subst.
  destruct I as [I | I], J as [J | J].
  - congruence.
  - injection I as -> ->. exfalso. apply A. apply in_map_iff. exists (n, u); auto.
  - injection J as -> ->. exfalso. apply A. apply in_map_iff. exists (n, t); auto.
  - eauto.
Qed.
Lemma same_keys : forall d d' n, same_dict d d' -> (In n (map fst d) <-> In n (map fst d')).
Proof.
  intros d d' n S. rewrite !in_map_iff. split; intros ([m t] & E & I); exists (m, t); split; auto; now apply S.
Qed.
Lemma dict_get_same : forall d d' n t, same_dict d d' -> NoDup (map fst d') -> (dict_get n d = Some t <-> In (n, t) d').
Proof.
  intros d d' n t S D. split; intro H.
  - apply dict_get_in in H. now apply S.
  - destruct (dict_get n d) as [u | ] eqn:E.
    + apply dict_get_in, S in E. f_equal. eapply nodup_fst; eauto.
    + apply dict_get_none in E. exfalso. apply E. apply (same_keys d d' n S). apply in_map_iff. exists (n, t); auto.
Qed.

Lemma vector_runs : forall raw ks, NoDup (map sc_name ks) ->
  (forall k text, In k ks -> dict_get (sc_name k) raw = Some text -> exists vs, means k text vs) ->
  exists l cmds, vector_of ks raw = Ok l /\ execute_vector l = Ok cmds /\ (forall r, scripts_run (cmds ++ r) = scripts_run r) /\
    forall s, exists s', (forall r, applied (cmds ++ r) s = s' :: applied r s') /\
      (forall n, dict_get n raw = None \/ ~ In n (map sc_name ks) -> s' n = s n) /\
      (forall k text vs, In k ks -> dict_get (sc_name k) raw = Some text -> means k text vs -> same_values (s' (sc_name k)) vs).
Proof.
  induction ks as [ | k ks IH ]; intros D H; simpl.
  - exists [], [LApply]. repeat split; auto. intro s. exists s. split; [ reflexivity | ]. split; [ auto | intros ? ? ? [] ].
  - simpl in D. inversion D as [ | ? ? A B ]; subst.
    destruct IH as (l & cmds & V & X & Q & P); auto. { intros; eapply H; simpl; eauto. }
    destruct (dict_get (sc_name k) raw) as [text | ] eqn:G.
    + destruct (H k text) as (vs & M); simpl; auto.
      destruct (set_means _ _ _ M) as (c & a & S & C & R & _).
      exists (c :: l), (LSet (sc_name k) a :: cmds). rewrite S. simpl. rewrite V. simpl. rewrite R, X, C. simpl. repeat split; auto.
      intro s. destruct (P (fun x => if str_eqb x (sc_name k) then a else s x)) as (s' & E & O & N).
      assert (F : s' (sc_name k) = a) by (rewrite O by auto; now rewrite str_eqb_refl).
      exists s'. repeat split; auto.
      * intros n K. rewrite O by (destruct K as [K | K]; [ auto | right; intro J; apply K; auto ]).
        destruct (str_eqb n (sc_name k)) eqn:E2; auto. apply str_eqb_eq in E2. subst. destruct K as [K | K]; [ congruence | ].
        exfalso. apply K. auto.
      * destruct H0 as [<- | I]; [ | apply (N k0 text0 vs0); auto ].
        rewrite G in H1. injection H1 as <-. destruct (set_means _ _ _ H2) as (c2 & a2 & S2 & _ & R2 & W).
        rewrite S in S2. injection S2 as <-. rewrite R in R2. injection R2 as <-. rewrite F. apply W.
      * destruct H0 as [<- | I]; [ | apply (N k0 text0 vs0); auto ].
        rewrite G in H1. injection H1 as <-. destruct (set_means _ _ _ H2) as (c2 & a2 & S2 & _ & R2 & W).
        rewrite S in S2. injection S2 as <-. rewrite R in R2. injection R2 as <-. rewrite F. apply W.
    + exists l, cmds. repeat split; auto. intro s. destruct (P s) as (s' & E & O & N). exists s'. split; [ auto | split ].
      * intros n K. apply O. destruct K as [K | K]; auto.
      * intros k0 text vs [<- | I] J M; [ congruence | eauto ].
Qed.

(** One object that is valid. *)
Lemma play_dict : forall ks scripts d d', NoDup (map sc_name ks) -> valid_dict ks d' -> same_dict d d' ->
  exists cmds, play_one ks scripts (t_set, ADict d) = Ok cmds /\ (forall r, scripts_run (cmds ++ r) = scripts_run r) /\
    forall s, exists s', (forall r, applied (cmds ++ r) s = s' :: applied r s') /\ changes ks d' s s'.
Proof.
  intros ks scripts d d' D (N & K & V) S.
  assert (U : forall k k2, In k ks -> In k2 ks -> sc_name k = sc_name k2 -> k = k2).
  { clear - D. induction ks as [ | x ks IH ]; intros k k2 I J E; [ destruct I | ]. simpl in D. inversion D as [ | ? ? A B ]; subst.
    destruct I as [<- | I], J as [<- | J]; auto; exfalso; apply A; apply in_map_iff; eauto. }
  destruct (vector_runs d ks D) as (l & cmds & E & X & Q & P).
  { intros k text I G. apply (dict_get_same _ _ _ _ S K) in G. destruct (V _ _ G) as (k2 & vs & I2 & E & M). exists vs.
    rewrite (U k k2); auto. }
  exists cmds. repeat split; auto.
  - unfold play_one. rewrite str_eqb_refl. unfold test_vector. destruct d as [ | x d ].
    + destruct d' as [ | [n t] d' ]; [ congruence | ]. exfalso. apply (S n t). simpl; auto.
    + rewrite E. simpl. exact X.
  - intro s. destruct (P s) as (s' & A & O & C). exists s'. split; auto. split.
    + intros n text k vs I J <- M. apply (C k text vs); auto. apply (dict_get_same _ _ _ _ S K). auto.
    + intros n I. apply O. left. apply dict_get_none. intro J. apply I. now apply (same_keys d d').
Qed.

Lemma update_same : forall d d2 both, (forall n text, In (n, text) both <-> In (n, text) d2 \/ (In (n, text) d /\ ~ In n (map fst d2))) ->
  same_dict (dict_update d d2) both.
Proof.
  intros d d2 both H n t. rewrite H. unfold dict_update. rewrite in_app_iff, filter_In. simpl.
  destruct (dict_get n d2) as [u | ] eqn:G.
  - assert (In n (map fst d2)). { apply dict_get_in in G. apply in_map_iff. exists (n, u); auto. } intuition congruence.
  - apply dict_get_none in G. tauto.
Qed.

(** Two actions alike. *)
Definition alike (a b : action) : Prop :=
  match a, b with
  | (ty, ADict d), (ty2, ADict d2) => ty = ty2 /\ same_dict d d2
  | (ty, AText s), (ty2, AText s2) => ty = ty2 /\ s = s2
  | _, _ => False
  end.

Lemma resolve_stands : forall gathered a b, NoDup (map fst gathered) -> stands_for gathered a b ->
  exists x, resolve gathered a = Ok x /\ alike x b.
Proof.
  intros gathered a b D S. inversion S as [ d E | n E | ty d d2 both N1 N2 I B H E ]; subst.
  - exists (t_set, ADict d). split; [ reflexivity | ]. split; auto. intros ? ?; tauto.
  - exists (t_script, AText n). split; [ reflexivity | ]. split; auto.
  - exists (t_set, ADict (dict_update d d2)). split; [ | split; auto; now apply update_same ].
    unfold resolve. apply str_eqb_neq in N1, N2. rewrite N1, N2. cbn [orb].
    assert (F : find (fun x : str * action => str_eqb ty (fst x)) gathered = Some (ty, (t_set, ADict d2))).
    { clear - D I. induction gathered as [ | [m w] g IH ]; [ destruct I | ]. simpl in D. inversion D as [ | ? ? A B ]; subst. simpl.
      destruct I as [I | I].
      - injection I as -> ->. now rewrite str_eqb_refl.
      - destruct (str_eqb ty m) eqn:E; auto. apply str_eqb_eq in E. subst. exfalso. apply A. apply in_map_iff.
        exists (m, (t_set, ADict d2)); auto. }
    rewrite F. reflexivity.
Qed.

Lemma resolve_all_stands : forall gathered l l', NoDup (map fst gathered) -> Forall2 (stands_for gathered) l l' ->
  exists x, resolve_all gathered l = Ok x /\ Forall2 alike x l'.
Proof.
  intros gathered l l' D F. induction F as [ | a b l l' S F IH ]; simpl.
  - exists []. auto.
  - destruct (resolve_stands _ _ _ D S) as (x & E & A), IH as (y & E2 & A2). rewrite E. simpl. rewrite E2. simpl.
    exists (x :: y). auto.
Qed.

(** The actions that can be played, then the others. *)
Lemma play_app : forall ks scripts pre acts, NoDup (map sc_name ks) -> Forall2 alike pre acts -> Forall (playable ks scripts) acts ->
  exists cmds, (forall post, play ks scripts (pre ++ post) = (cmds ++ fst (play ks scripts post), snd (play ks scripts post))) /\
    forall s, runs ks scripts acts s (applied cmds s) (scripts_run cmds).
Proof.
  intros ks scripts pre acts D F. induction F as [ | a b pre acts A F IH ]; intro P.
  - exists []. split; [ intro; simpl; now destruct (play ks scripts post) | ]. intro. constructor.
  - inversion P as [ | ? ? P1 P2 ]; subst. destruct (IH P2) as (cmds & E & R).
    destruct a as [ty [d | t]], b as [ty2 [d2 | t2]]; simpl in A; try contradiction; destruct A as (<- & S); simpl in P1; destruct P1 as (-> & V).
    + destruct (play_dict ks scripts d d2 D V S) as (c & O & Q & W). exists (c ++ cmds). split.
      * intro post. cbn [app play]. rewrite O, E. now rewrite app_assoc.
      * intro s. destruct (W s) as (s' & X & Y). rewrite X, Q. now constructor.
    + subst t2. exists (LScript t :: cmds). split.
      * intro post. cbn [app play]. unfold play_one. rewrite str_eqb_refl. apply str_in_spec in V. rewrite V, E. reflexivity.
      * intro s. simpl. now constructor.
Qed.

(** A value that is not allowed. *)
Lemma add_values_bad : forall allowed v ws cur l, In v ws -> ~ In v allowed -> add_values allowed ws cur <> Ok l.
Proof.
  induction ws as [ | w r IH ]; intros cur l I A; [ destruct I | ]. simpl. destruct I as [-> | I].
  - apply str_in_false in A. rewrite A. discriminate.
  - destruct (str_in w allowed && negb (str_eqb w no_value)); [ now apply IH | discriminate ].
Qed.
Lemma set_refused : forall k text c, refused_text k text -> set_current (new_crit k) text <> Ok c.
Proof.
  intros k text c R. unfold set_current, new_crit. inversion R as [ v I A N E | ws v I W Z J A E ]; subst; simpl; rewrite I.
  - apply str_in_false in A. apply str_eqb_neq in N. change (lit "0") with no_value in N. rewrite A, N. discriminate.
  - rewrite py_words_spaced by auto. apply str_in_false in Z. change (lit "0") with no_value in Z. rewrite Z.
    destruct (add_values (sc_allowed k) ws (set_remove no_value [])) eqn:E; simpl; try discriminate.
    exfalso. eapply add_values_bad; eauto.
Qed.
Lemma vector_bad : forall raw ks k text, In k ks -> dict_get (sc_name k) raw = Some text -> refused_text k text ->
  forall l, vector_of ks raw <> Ok l.
Proof.
  induction ks as [ | x ks IH ]; intros k text I G R l; [ destruct I | ]. simpl.
  destruct I as [<- | I].
  - rewrite G. destruct (set_current (new_crit x) text) eqn:E; simpl; try discriminate. exfalso. eapply set_refused; eauto.
  - specialize (IH k text I G R). destruct (dict_get (sc_name x) raw) as [s | ]; auto.
    destruct (set_current (new_crit x) s); simpl; try discriminate. destruct (vector_of ks raw) eqn:E; simpl; try discriminate.
    exfalso. eapply IH. reflexivity.
Qed.
Lemma refused_stops : forall ks scripts a x, refused ks scripts a -> play_one ks scripts a <> Ok x.
Proof.
  intros ks scripts a x R. inversion R as [ d k text N I K T E | n I E ]; subst; unfold play_one; rewrite str_eqb_refl.
  - unfold test_vector. destruct d as [ | e d ]; [ destruct I | ].
    destruct (vector_of ks (e :: d)) as [v | | | ] eqn:EV; simpl; try discriminate. exfalso. eapply (vector_bad (e :: d) ks k text); eauto.
    apply (dict_get_same (e :: d) (e :: d)); auto. intros ? ?; tauto.
  - apply str_in_false in I. rewrite I. discriminate.
Qed.

Lemma resolve_all_app : forall gathered a b la lb, resolve_all gathered a = Ok la -> resolve_all gathered b = Ok lb ->
  resolve_all gathered (a ++ b) = Ok (la ++ lb).
Proof.
  induction a as [ | x a IH ]; intros b la lb H1 H2; simpl in *.
  - injection H1 as <-. auto.
  - destruct (resolve gathered x) as [y | | | ]; simpl in *; try discriminate H1.
    destruct (resolve_all gathered a) as [z | | | ]; simpl in *; try discriminate H1. injection H1 as <-.
    rewrite (IH b z lb); auto.
Qed.
Lemma resolve_all_bad : forall gathered a l x, In a l -> (forall y, resolve gathered a <> Ok y) -> resolve_all gathered l <> Ok x.
Proof.
  induction l as [ | b l IH ]; intros x I R; [ destruct I | ]. simpl. destruct I as [-> | I].
  - destruct (resolve gathered a) eqn:E; simpl; try discriminate. exfalso. eapply R. reflexivity.
  - destruct (resolve gathered b); simpl; try discriminate. destruct (resolve_all gathered l) eqn:E; simpl; try discriminate.
    exfalso. eapply IH; eauto.
Qed.

Lemma is_prefix_spec : forall x s, is_prefix x s = true <-> exists b, s = x ++ b.
Proof.
  induction x as [ | a x IH ]; intros [ | c s ]; simpl.
  - split; eauto.
  - split; eauto.
  - split; [ discriminate | intros (b & H); discriminate ].
  - rewrite andb_true_iff, Ascii.eqb_eq, IH. split.
    + intros (-> & b & ->). eauto.
    + intros (b & H). injection H as -> ->. eauto.
Qed.
Lemma is_infix_spec : forall x s, is_infix x s = true <-> exists a b, s = a ++ x ++ b.
Proof.
  intros x s. induction s as [ | c s IH ]; cbn [is_infix]; rewrite orb_true_iff, is_prefix_spec.
  - split.
    + intros [ (b & H) | H ]; [ exists [], b; auto | discriminate ].
    + intros ([ | ] & b & H); [ left; eauto | discriminate ].
  - rewrite IH. split.
    + intros [ (b & H) | (a & b & H) ]; [ exists [], b; auto | exists (c :: a), b; now rewrite H ].
    + intros ([ | e a ] & b & H); [ left; eauto | right; injection H as <- ->; eauto ].
Qed.
