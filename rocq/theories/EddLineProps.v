(** C78: which lines an EDD file can have, and what they are taken for. *)
From Coq Require Import List Arith Bool Ascii String Lia.
From Verif Require Import Base BaseProofs EddModel EddSpec EddLineProofs EddProps.
Import ListNotations.
Local Open Scope nat_scope.

(** A tag, spaces, a colon. *)
Definition tag_line (tags : list str) (s : str) : Prop := exists t n r, In t tags /\ s = t ++ repeat " "%char n ++ ":"%char :: r.
(** An equals sign that is not the first character. *)
Definition path_line (s : str) : Prop := exists c a r, s = c :: a ++ "="%char :: r.
(** ANY or ALL. *)
Definition operator_line (s : str) : Prop := exists r, s = lit "ANY" ++ r \/ s = lit "ALL" ++ r.
(** A word, spaces, a verb, spaces, the start of a word. *)
Definition rule_line (s : str) : Prop := exists w n v m c r, plain_word w /\ In v [lit "Is"; lit "IsNot"; lit "Includes"; lit "Excludes"] /\ word_char c = true
  /\ s = w ++ repeat " "%char (S n) ++ v ++ repeat " "%char (S m) ++ c :: r.

(** The classes in the order in which they are tried. *)
Definition class_of (k : ekind) (s : str) : Prop :=
  match k with
  | KGroupDomain => tag_line [lit "supDomain"; lit "domainGroup"] s
  | KDomain => tag_line [lit "domain"] s
  | KPath => path_line s
  | KGroupConf => tag_line [lit "supConf"; lit "confGroup"; lit "confType"] s
  | KConf => tag_line [lit "conf"] s
  | KOperator => operator_line s
  | KRule => rule_line s
  | KGroupPath => tag_line [lit "component"] s
  | KRoot => False
  end.
Definition class_order : list ekind := [KGroupDomain; KDomain; KPath; KGroupConf; KConf; KOperator; KRule; KGroupPath].

Lemma skip_inv : forall s, exists n, s = repeat " "%char n ++ skip_spaces s /\ match skip_spaces s with c :: _ => c <> " "%char | [] => True end.
Proof.
  induction s as [|c s [n [E H]]]; [exists 0; split; [reflexivity|exact I]|]. cbn [skip_spaces]. destruct (char_eqb c " "%char) eqn:X.
  - apply char_eqb_eq in X. subst c. exists (S n). cbn [repeat app]. rewrite <- E. auto.
  - exists 0. cbn [repeat app]. split; [reflexivity|]. intros ->. rewrite char_eqb_refl in X. discriminate.
Qed.

Lemma skip_repeat : forall n c r, c <> " "%char -> skip_spaces (repeat " "%char n ++ c :: r) = c :: r.
Proof. intros n c r N. induction n as [|n IH]; cbn [repeat app skip_spaces]; [|rewrite char_eqb_refl; exact IH]. destruct (char_eqb c " "%char) eqn:X; [apply char_eqb_eq in X; contradiction|reflexivity]. Qed.

Lemma tagged_spec : forall tags s, tagged tags s = true <-> tag_line tags s.
Proof.
  intros tags s. unfold tagged. rewrite existsb_exists. split.
  - intros [t [I H]]. destruct (starts_with t s) as [r|] eqn:E; [|discriminate]. apply starts_with_Some in E. destruct (skip_inv r) as [n [Er _]]. destruct (skip_spaces r) as [|c r']; [discriminate|].
    apply char_eqb_eq in H. subst c. exists t, n, r'. split; [exact I|]. rewrite E, Er. reflexivity.
  - intros [t [n [r [I ->]]]]. exists t. split; [exact I|]. rewrite starts_with_app, skip_repeat by discriminate. reflexivity.
Qed.

Lemma cut_Some : forall d s a b, cut d s = (a, Some b) -> s = a ++ d :: b.
Proof.
  intros d. induction s as [|c s IH]; intros a b E; cbn [cut] in E; [discriminate|]. destruct (char_eqb c d) eqn:X.
  - apply char_eqb_eq in X. injection E as <- <-. subst c. reflexivity.
  - destruct (cut d s) as [a' o]. injection E as <- ->. rewrite (IH a' b eq_refl). reflexivity.
Qed.

Lemma cut_there : forall d a b, exists x y, cut d (a ++ d :: b) = (x, Some y).
Proof.
  intros d. induction a as [|c a IH]; intros b; cbn [app cut]; [rewrite char_eqb_refl; eauto|]. destruct (char_eqb c d); [eauto|]. destruct (IH b) as [x [y ->]]. eauto.
Qed.

Lemma path_spec : forall s, match_path s = true <-> path_line s.
Proof.
  intros [|c s]; cbn [match_path].
  - split; [discriminate|]. intros [c [a [r E]]]. discriminate.
  - destruct (cut "="%char s) as [a o] eqn:E. cbn [snd]. split.
    + destruct o as [b|]; [|discriminate]. intros _. exists c, a, b. rewrite (cut_Some _ _ _ _ E). reflexivity.
    + intros [c' [a' [r Er]]]. injection Er as _ ->. destruct (cut_there "="%char a' r) as [x [y H]]. rewrite E in H. injection H as _ ->. reflexivity.
Qed.

Lemma operator_spec : forall s, match_operator s = true <-> operator_line s.
Proof.
  intros s. unfold match_operator, operator_line. split.
  - destruct (starts_with (lit "ANY") s) as [r|] eqn:E; [apply starts_with_Some in E; eauto|]. destruct (starts_with (lit "ALL") s) as [r|] eqn:F; [apply starts_with_Some in F; eauto|discriminate].
  - intros [r [->| ->]]; rewrite starts_with_app; [reflexivity|]. destruct (starts_with (lit "ANY") (lit "ALL" ++ r)); reflexivity.
Qed.

Lemma word_inv : forall s, s = fst (word s) ++ snd (word s) /\ (forall c, In c (fst (word s)) -> word_char c = true).
Proof.
  induction s as [|c s [E H]]; [split; [reflexivity|intros c []]|]. cbn [word]. destruct (word_char c) eqn:X; [|split; [reflexivity|intros d []]].
  destruct (word s) as [a b]. cbn [fst snd] in *. split; [rewrite E at 1; reflexivity|]. intros d [<-|I]; auto.
Qed.

Lemma rule_spec : forall s, match_rule s = true <-> rule_line s.
Proof.
  intros s. unfold match_rule. split.
  - destruct (word_inv s) as [E W]. destruct (word s) as [w r]. cbn [fst snd] in E, W. destruct w as [|w0 w]; [discriminate|]. destruct r as [|c r]; [discriminate|]. intros H.
    apply andb_prop in H. destruct H as [H1 H2]. apply char_eqb_eq in H1. subst c. apply existsb_exists in H2. destruct H2 as [v [Iv H2]].
    destruct (skip_inv (" "%char :: r)) as [n [En _]]. destruct (starts_with v (skip_spaces (" "%char :: r))) as [[|c' r']|] eqn:Ev; try discriminate.
    apply starts_with_Some in Ev. apply andb_prop in H2. destruct H2 as [H2 H3]. apply char_eqb_eq in H2. subst c'. destruct (skip_inv r') as [m [Em _]]. destruct (skip_spaces r') as [|x r''] eqn:Ex; [discriminate|].
    assert (exists n', n = S n') as [n' ->].
    { destruct n as [|n']; [|eauto]. exfalso. cbn [skip_spaces] in Ev. rewrite char_eqb_refl in Ev. destruct (skip_inv r) as [_ [_ Q]]. cbn [repeat app skip_spaces] in En. rewrite char_eqb_refl in En.
      rewrite <- En in Q. apply Q. reflexivity. }
    exists (w0 :: w), n', v, m, x, r''. split; [split; [discriminate|exact W]|]. split; [exact Iv|]. split; [exact H3|].
    rewrite E, En, Ev, Em. cbn [repeat app]. rewrite <- ?app_assoc. reflexivity.
  - intros [w [n [v [m [c [r [[Nw W] [Iv [Hc ->]]]]]]]]]. cbn [repeat app]. rewrite (word_stop w " "%char _ W eq_refl). destruct w as [|w0 w]; [contradiction|].
    cbn [andb]. rewrite char_eqb_refl. apply existsb_exists. exists v. split; [exact Iv|].
    assert (c <> " "%char) as Nc by (apply word_not_space; exact Hc).
    assert (skip_spaces (" "%char :: repeat " "%char n ++ v ++ " "%char :: repeat " "%char m ++ c :: r) = v ++ " "%char :: repeat " "%char m ++ c :: r) as ->.
    { cbn [In] in Iv. destruct Iv as [<-|[<-|[<-|[<-|[]]]]]; apply (skip_repeat (S n)); discriminate. }
    rewrite starts_with_app, char_eqb_refl, skip_repeat by exact Nc. exact Hc.
Qed.

Definition class_test (k : ekind) (s : str) : bool :=
  match k with
  | KGroupDomain => tagged [lit "supDomain"; lit "domainGroup"] s
  | KDomain => tagged [lit "domain"] s
  | KPath => match_path s
  | KGroupConf => tagged [lit "supConf"; lit "confGroup"; lit "confType"] s
  | KConf => tagged [lit "conf"] s
  | KOperator => match_operator s
  | KRule => match_rule s
  | KGroupPath => tagged [lit "component"] s
  | KRoot => false
  end.

Lemma class_spec : forall k s, class_test k s = true <-> class_of k s.
Proof. intros k s. destruct k; cbn [class_test class_of]; try apply tagged_spec; [split; [discriminate|intros []]|apply path_spec|apply operator_spec|apply rule_spec]. Qed.

Lemma tested : forall s, (forall r, s <> "#"%char :: r) ->
  match element_of s with
  | Ok (Some (k, _)) => exists b a, class_order = b ++ k :: a /\ class_test k s = true /\ forall k', In k' b -> class_test k' s = false
  | Ok None => False
  | Err => forall k, class_test k s = false
  | _ => False
  end.
Proof.
  intros s N.
  assert (element_of s =
      if class_test KGroupDomain s then Ok (Some (KGroupDomain, domain_opts s))
      else if class_test KDomain s then Ok (Some (KDomain, domain_opts s))
      else if class_test KPath s then Ok (Some (KPath, path_opts s))
      else if class_test KGroupConf s then Ok (Some (KGroupConf, tag_opts s))
      else if class_test KConf s then Ok (Some (KConf, tag_opts s))
      else if class_test KOperator s then Ok (Some (KOperator, EOpts (strip (strip s)) [] [] false))
      else if class_test KRule s then Ok (Some (KRule, rule_opts s))
      else if class_test KGroupPath s then Ok (Some (KGroupPath, tag_opts s))
      else Err) as ->.
  { unfold element_of. destruct s as [|c s]; [reflexivity|]. destruct c as [b0 b1 b2 b3 b4 b5 b6 b7]. destruct b0, b1, b2, b3, b4, b5, b6, b7; try reflexivity. exfalso. exact (N s eq_refl). }
  assert (forall b k a, class_order = b ++ k :: a -> forallb (fun k' => negb (class_test k' s)) b = true -> class_test k s = true ->
            exists b a, class_order = b ++ k :: a /\ class_test k s = true /\ forall k', In k' b -> class_test k' s = false) as F.
  { intros b k a E H T. exists b, a. split; [exact E|]. split; [exact T|]. intros k' I. rewrite forallb_forall in H. apply H in I. destruct (class_test k' s); [discriminate|reflexivity]. }
  destruct (class_test KGroupDomain s) eqn:E1; [apply (F [] _ _ eq_refl); auto|].
  destruct (class_test KDomain s) eqn:E2; [apply (F [KGroupDomain] _ _ eq_refl); auto; cbn [forallb]; rewrite E1; reflexivity|].
  destruct (class_test KPath s) eqn:E3; [apply (F [KGroupDomain; KDomain] _ _ eq_refl); auto; cbn [forallb]; rewrite E1, E2; reflexivity|].
  destruct (class_test KGroupConf s) eqn:E4; [apply (F [KGroupDomain; KDomain; KPath] _ _ eq_refl); auto; cbn [forallb]; rewrite E1, E2, E3; reflexivity|].
  destruct (class_test KConf s) eqn:E5; [apply (F [KGroupDomain; KDomain; KPath; KGroupConf] _ _ eq_refl); auto; cbn [forallb]; rewrite E1, E2, E3, E4; reflexivity|].
  destruct (class_test KOperator s) eqn:E6; [apply (F [KGroupDomain; KDomain; KPath; KGroupConf; KConf] _ _ eq_refl); auto; cbn [forallb]; rewrite E1, E2, E3, E4, E5; reflexivity|].
  destruct (class_test KRule s) eqn:E7; [apply (F [KGroupDomain; KDomain; KPath; KGroupConf; KConf; KOperator] _ _ eq_refl); auto; cbn [forallb]; rewrite E1, E2, E3, E4, E5, E6; reflexivity|].
  destruct (class_test KGroupPath s) eqn:E8; [apply (F [KGroupDomain; KDomain; KPath; KGroupConf; KConf; KOperator; KRule] _ _ eq_refl); auto; cbn [forallb]; rewrite E1, E2, E3, E4, E5, E6, E7; reflexivity|].
  intros [ | | | | | | | | ]; auto.
Qed.

Lemma indented : forall d c s, c <> tab -> c <> " "%char -> parse_line (repeat tab d ++ c :: s) = do e <- element_of (c :: s); Ok (match e with Some x => Some (S d, x) | None => None end).
Proof.
  intros d c s Nt Ns. unfold parse_line.
  assert (indentation (repeat tab d ++ c :: s) = (repeat tab d, c :: s)) as ->.
  { induction d as [|d IH]; cbn [repeat app indentation].
    - destruct (char_eqb c (ascii_of_nat 9)) eqn:X; [apply char_eqb_eq in X; contradiction|]. destruct (char_eqb c " "%char) eqn:Y; [apply char_eqb_eq in Y; contradiction|]. reflexivity.
    - rewrite IH. reflexivity. }
  assert (in_chars (repeat tab d) " "%char = false) as -> by (induction d as [|d IH]; [reflexivity|]; cbn [repeat]; unfold in_chars in *; cbn [existsb]; rewrite IH; reflexivity).
  rewrite repeat_length. reflexivity.
Qed.

(** A line indented with tabulations that is no comment is taken for the first class it has the form of, one level deeper than its
    tabulations; it is refused if it has the form of none. *)
Theorem C78_lines : forall d c s, c <> tab -> c <> " "%char -> c <> "#"%char ->
  (forall rank k o, parse_line (repeat tab d ++ c :: s) = Ok (Some (rank, (k, o))) ->
     rank = S d /\ exists b a, class_order = b ++ k :: a /\ class_of k (c :: s) /\ forall k', In k' b -> ~ class_of k' (c :: s))
  /\ (parse_line (repeat tab d ++ c :: s) = Err <-> forall k, ~ class_of k (c :: s))
  /\ ((exists rank k o, parse_line (repeat tab d ++ c :: s) = Ok (Some (rank, (k, o)))) \/ parse_line (repeat tab d ++ c :: s) = Err).
Proof.
  intros d c s Nt Ns Nc. rewrite indented by assumption. pose proof (tested (c :: s)) as T. specialize (T ltac:(intros r E; injection E as E _; contradiction)).
  destruct (element_of (c :: s)) as [[[k o]|]| | |]; try contradiction; cbn [obind].
  - destruct T as [b [a [E [Tk Tb]]]]. apply class_spec in Tk. split; [|split].
    + intros rank k' o' H. injection H as <- <- <-. split; [reflexivity|]. exists b, a. split; [exact E|]. split; [exact Tk|]. intros k' I C. apply class_spec in C. rewrite (Tb k' I) in C. discriminate.
    + split; [discriminate|]. intros H. destruct (H k Tk).
    + left. eauto.
  - split; [discriminate|]. split; [|right; reflexivity]. split; [|reflexivity]. intros _ k C. apply class_spec in C. rewrite T in C. discriminate.
Qed.
Print Assumptions C78_lines.

(** A space among the tabulations at the start of a line that is not empty is refused. *)
Theorem C78_spaces : forall i c s, (forall x, In x i -> x = tab \/ x = " "%char) -> In " "%char i -> c <> tab -> c <> " "%char -> parse_line (i ++ c :: s) = Err.
Proof.
  intros i c s Hi Is Nt Ns. unfold parse_line.
  assert (indentation (i ++ c :: s) = (i, c :: s)) as ->.
  { clear Is. induction i as [|x i IH]; cbn [app indentation].
    - destruct (char_eqb c (ascii_of_nat 9)) eqn:X; [apply char_eqb_eq in X; contradiction|]. destruct (char_eqb c " "%char) eqn:Y; [apply char_eqb_eq in Y; contradiction|]. reflexivity.
    - rewrite IH by (intros y I; apply Hi; right; exact I). destruct (Hi x (or_introl eq_refl)) as [->| ->]; reflexivity. }
  assert (in_chars i " "%char = true) as ->; [|reflexivity]. unfold in_chars. apply existsb_exists. exists " "%char. split; [exact Is|reflexivity].
Qed.
Print Assumptions C78_spaces.

(** A file with a line that is refused is refused, wherever the line is. *)
Theorem C78_refused_file : forall before line after, parse_line line = Err -> parse_edd (before ++ line :: after) = Err.
Proof.
  intros before line after E. unfold parse_edd. generalize (EParser [] [] 0). induction before as [|l before IH]; intros p; cbn [app add_lines].
  - unfold add_line. rewrite E. reflexivity.
  - destruct (add_line p l) as [p'| | |] eqn:El; cbn [obind]; [apply IH|reflexivity| |].
    all: exfalso; unfold add_line in El; destruct (parse_line l) as [[[rank [k o]]|]| | |] eqn:Ep; cbn [obind] in El; try discriminate;
        try (destruct (S (ep_rank p) <? rank); [discriminate|]; destruct (pop _ _ _) as [root o']; destruct (permitted _ _); discriminate);
        unfold parse_line in Ep; destruct (indentation l) as [i [|c r]]; try discriminate; destruct (in_chars i " "%char); try discriminate; destruct (element_of (c :: r)) as [e| | |] eqn:Ee; cbn [obind] in Ep; try discriminate; unfold element_of in Ee;
        repeat match type of Ee with context [if ?b then _ else _] => destruct b end; try discriminate; destruct c as [b0 b1 b2 b3 b4 b5 b6 b7]; destruct b0, b1, b2, b3, b4, b5, b6, b7; discriminate.
Qed.
Print Assumptions C78_refused_file.

Example C78_lines_nonvacuous :
  (exists o, parse_line (ln 2 "Mode IsNot Call") = Ok (Some (3, (KRule, o)))) /\ rule_line (lit "Mode IsNot Call")
  /\ parse_line (ln 1 "Mode Is ") = Err /\ parse_line (lit " domain: D") = Err
  /\ (exists o, parse_line (lit "conf: a=b") = Ok (Some (1, (KPath, o)))) /\ tag_line [lit "conf"] (lit "conf: a=b").
Proof.
  split; [eexists; vm_compute; reflexivity|]. split; [apply rule_spec; vm_compute; reflexivity|]. split; [vm_compute; reflexivity|]. split; [vm_compute; reflexivity|].
  split; [eexists; vm_compute; reflexivity|]. apply tagged_spec. vm_compute. reflexivity.
Qed.
