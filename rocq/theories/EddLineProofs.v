(** Proofs about the lines of EDD files. *)
From Coq Require Import List Arith Bool Ascii String Lia.
From Verif Require Import Base BaseProofs RuleSpec EddModel EddSpec.
Import ListNotations.
Local Open Scope nat_scope.

(** ** Texts *)

Lemma char_eqb_eq : forall a b, char_eqb a b = true <-> a = b.
Proof. intros a b. apply Ascii.eqb_eq. Qed.
Lemma char_eqb_refl : forall a, char_eqb a a = true.
Proof. intros a. apply char_eqb_eq. reflexivity. Qed.
Lemma char_eqb_neq : forall a b, a <> b -> char_eqb a b = false.
Proof. intros a b H. destruct (char_eqb a b) eqn:E; auto. apply char_eqb_eq in E. contradiction. Qed.

Lemma lstrip_blanks : forall a s, blanks a -> lstrip (a ++ s) = lstrip s.
Proof.
  induction a as [|c a IH]; intros s H; [reflexivity|]. cbn [app lstrip]. rewrite (H c) by (left; reflexivity).
  apply IH. intros x I. apply H. right. exact I.
Qed.

Lemma lstrip_fix : forall s, (forall c r, s = c :: r -> py_blank c = false) -> lstrip s = s.
Proof. intros [|c r] H; [reflexivity|]. cbn [lstrip]. rewrite (H c r eq_refl). reflexivity. Qed.

Lemma blanks_rev : forall s, blanks s -> blanks (rev s).
Proof. intros s H c I. apply H. apply in_rev. exact I. Qed.

Lemma strip_around : forall a s b, blanks a -> trimmed s -> blanks b -> strip (a ++ s ++ b) = s.
Proof.
  intros a s b Ha [T1 T2] Hb. unfold strip. rewrite lstrip_blanks by exact Ha. destruct s as [|c r].
  - cbn [app]. rewrite <- (app_nil_r b), lstrip_blanks by exact Hb. reflexivity.
  - rewrite (lstrip_fix ((c :: r) ++ b)).
    + rewrite rev_app_distr, lstrip_blanks by (apply blanks_rev; exact Hb). rewrite lstrip_fix; [apply rev_involutive|].
      intros x q E. apply (T2 x (rev q)). rewrite <- (rev_involutive (c :: r)), E. reflexivity.
    + intros x q E. cbn [app] in E. injection E as <- _. apply (T1 c r eq_refl).
Qed.

Lemma blanks_nil : blanks [].
Proof. intros c []. Qed.
Lemma strip_trimmed : forall s, trimmed s -> strip s = s.
Proof. intros s H. rewrite <- (app_nil_r s) at 1. exact (strip_around [] s [] blanks_nil H blanks_nil). Qed.
Lemma strip_end : forall s b, trimmed s -> blanks b -> strip (s ++ b) = s.
Proof. intros s b H Hb. exact (strip_around [] s b blanks_nil H Hb). Qed.

Lemma spaces_blanks : forall s, spaces s -> blanks s.
Proof. intros s H c I. rewrite (H c I). reflexivity. Qed.

Lemma cut_at : forall d a b, no_char d a -> cut d (a ++ d :: b) = (a, Some b).
Proof.
  intros d a b. induction a as [|c a IH]; intros H; cbn [app cut].
  - rewrite char_eqb_refl. reflexivity.
  - rewrite char_eqb_neq by (intros ->; apply H; left; reflexivity). rewrite IH; [reflexivity|]. intros I. apply H. right. exact I.
Qed.

Lemma cut_none : forall d a, no_char d a -> cut d a = (a, None).
Proof.
  intros d a. induction a as [|c a IH]; intros H; cbn [cut]; [reflexivity|].
  rewrite char_eqb_neq by (intros ->; apply H; left; reflexivity). rewrite IH; [reflexivity|]. intros I. apply H. right. exact I.
Qed.

Lemma trimmed_app : forall a b, trimmed a -> trimmed b -> a <> [] -> b <> [] -> forall m, trimmed (a ++ m ++ b).
Proof.
  intros a b [A1 A2] [B1 B2] Ha Hb m. split.
  - intros c r E. destruct a as [|x a]; [contradiction|]. cbn [app] in E. injection E as <- _. apply (A1 x a eq_refl).
  - intros c r E. destruct (exists_last Hb) as [b' [y ->]]. rewrite !app_assoc in E. apply app_inj_tail in E. destruct E as [_ <-].
    apply (B2 y b' eq_refl).
Qed.

Lemma word_not_blank : forall c, word_char c = true -> py_blank c = false.
Proof.
  intros c H. destruct c as [b0 b1 b2 b3 b4 b5 b6 b7].
  destruct b0, b1, b2, b3, b4, b5, b6, b7; try reflexivity; exfalso; vm_compute in H; discriminate H.
Qed.

Lemma word_not_space : forall c, word_char c = true -> c <> " "%char.
Proof. intros c H ->. vm_compute in H. discriminate H. Qed.

Lemma plain_trimmed : forall s, plain_word s -> trimmed s.
Proof.
  intros s [_ H]. split; intros c r E; apply word_not_blank; apply H; rewrite E.
  - left. reflexivity.
  - apply in_or_app. right. left. reflexivity.
Qed.

Lemma plain_no_space : forall s, plain_word s -> no_char " "%char s.
Proof. intros s [_ H] I. apply (word_not_space " "%char (H _ I)). reflexivity. Qed.

(** ** Tags *)

Lemma starts_with_app : forall p s, starts_with p (p ++ s) = Some s.
Proof. induction p as [|c p IH]; intros s; [reflexivity|]. cbn [app starts_with]. rewrite char_eqb_refl. apply IH. Qed.

Lemma starts_with_Some : forall p s r, starts_with p s = Some r -> s = p ++ r.
Proof.
  induction p as [|c p IH]; intros s r H; cbn [starts_with] in H; [injection H as <-; reflexivity|].
  destruct s as [|d s]; [discriminate H|]. destruct (char_eqb c d) eqn:E; [|discriminate H]. apply char_eqb_eq in E. subst d.
  cbn [app]. f_equal. apply IH. exact H.
Qed.

Lemma skip_spaces_to : forall sp c s, spaces sp -> c <> " "%char -> skip_spaces (sp ++ c :: s) = c :: s.
Proof.
  induction sp as [|x sp IH]; intros c s H N; cbn [app skip_spaces].
  - rewrite char_eqb_neq by exact N. reflexivity.
  - rewrite (H x) by (left; reflexivity). rewrite char_eqb_refl. apply IH; auto. intros y I. apply H. right. exact I.
Qed.

Lemma skip_spaces_suffix : forall s, exists a, s = a ++ skip_spaces s.
Proof.
  induction s as [|c s [a IH]]; [exists []; reflexivity|]. cbn [skip_spaces]. destruct (char_eqb c " "%char); [|exists []; reflexivity].
  exists (c :: a). cbn [app]. f_equal. exact IH.
Qed.

Lemma tagged_yes : forall tags t sp r, In t tags -> spaces sp -> tagged tags (t ++ sp ++ ":"%char :: r) = true.
Proof.
  intros tags t sp r I H. unfold tagged. apply existsb_exists. exists t. split; [exact I|].
  rewrite starts_with_app, skip_spaces_to; [apply char_eqb_refl|exact H|discriminate].
Qed.

(** A tag needs a colon. *)
Lemma tagged_colon : forall tags s, tagged tags s = true -> In ":"%char s.
Proof.
  intros tags s H. unfold tagged in H. apply existsb_exists in H. destruct H as [t [_ H]].
  destruct (starts_with t s) as [r|] eqn:E; [|discriminate H]. apply starts_with_Some in E. subst s.
  destruct (skip_spaces_suffix r) as [a Ea]. destruct (skip_spaces r) as [|c q]; [discriminate H|]. apply char_eqb_eq in H. subst c.
  rewrite Ea. apply in_or_app. right. apply in_or_app. right. left. reflexivity.
Qed.

Lemma tagged_no_colon : forall tags s, ~ In ":"%char s -> tagged tags s = false.
Proof. intros tags s H. destruct (tagged tags s) eqn:E; auto. apply tagged_colon in E. contradiction. Qed.

(** A path needs an equal sign. *)
Lemma match_path_no : forall s, ~ In "="%char s -> match_path s = false.
Proof.
  intros [|c s] H; [reflexivity|]. unfold match_path. rewrite cut_none; [reflexivity|]. intros I. apply H. right. exact I.
Qed.

Lemma match_path_yes : forall a b, a <> [] -> match_path (a ++ "="%char :: b) = true.
Proof.
  intros [|c a] b H; [contradiction|]. cbn [app match_path]. clear H. enough (exists x, snd (cut "="%char (a ++ "="%char :: b)) = Some x) as [x ->] by reflexivity.
  induction a as [|d a [x IH]]; cbn [app cut].
  - rewrite char_eqb_refl. eexists. reflexivity.
  - destruct (char_eqb d "="%char); [eexists; reflexivity|]. destruct (cut "="%char (a ++ "="%char :: b)) as [u v]. exists x. exact IH.
Qed.

(** ** Lines *)

Lemma tag_cut : forall tag sp r, no_char ":"%char tag -> spaces sp -> cut ":"%char (tag ++ sp ++ ":"%char :: r) = (tag ++ sp, Some r).
Proof.
  intros tag sp r H Hs. rewrite app_assoc. apply cut_at. intros I. apply in_app_or in I. destruct I as [I|I]; [exact (H I)|].
  specialize (Hs _ I). discriminate Hs.
Qed.

Lemma blank_char : forall c, py_blank c = true -> c <> ":"%char /\ c <> "="%char /\ c <> "#"%char.
Proof. intros c H. repeat split; intros ->; vm_compute in H; discriminate H. Qed.

Definition rstrip (s : str) : str := rev (lstrip (rev s)).

Lemma lstrip_stop : forall l x m, py_blank x = false -> lstrip (l ++ x :: m) = lstrip l ++ x :: m.
Proof.
  induction l as [|c l IH]; intros x m H; cbn [app lstrip]; [rewrite H; reflexivity|]. destruct (py_blank c); auto.
Qed.

Lemma rstrip_stop : forall a x r, py_blank x = false -> rstrip (a ++ x :: r) = a ++ x :: rstrip r.
Proof.
  intros a x r H. unfold rstrip. rewrite rev_app_distr. cbn [rev]. rewrite <- app_assoc. cbn [app]. rewrite lstrip_stop by exact H.
  rewrite rev_app_distr. cbn [rev]. rewrite rev_involutive, <- app_assoc. reflexivity.
Qed.

Lemma strip_first : forall c s, py_blank c = false -> strip (c :: s) = rstrip (c :: s).
Proof. intros c s H. unfold strip. cbn [lstrip]. rewrite H. reflexivity. Qed.

Lemma rstrip_end : forall s b, trimmed s -> s <> [] -> blanks b -> forall a, rstrip (a ++ s ++ b) = a ++ s.
Proof.
  intros s b [_ T] N Hb a. destruct (exists_last N) as [q [x ->]]. rewrite <- app_assoc. cbn [app]. rewrite app_assoc.
  rewrite rstrip_stop by (apply (T x q eq_refl)). rewrite <- app_assoc. f_equal. f_equal. f_equal.
  unfold rstrip. rewrite <- (app_nil_r (rev b)), lstrip_blanks by (apply blanks_rev; exact Hb). reflexivity.
Qed.

Lemma rstrip_blanks : forall b, blanks b -> rstrip b = [].
Proof.
  intros b H. unfold rstrip. rewrite <- (app_nil_r (rev b)), lstrip_blanks by (apply blanks_rev; exact H). reflexivity.
Qed.

Lemma strip_rstrip : forall a s b, blanks a -> trimmed s -> blanks b -> strip (rstrip (a ++ s ++ b)) = s.
Proof.
  intros a s b Ha Hs Hb. destruct s as [|c s].
  - rewrite rstrip_blanks; [reflexivity|]. cbn [app]. intros x I. apply in_app_or in I. destruct I; auto.
  - rewrite rstrip_end; auto; [|discriminate]. pose proof (strip_around a (c :: s) [] Ha Hs blanks_nil) as E. rewrite app_nil_r in E. exact E.
Qed.

Lemma after_tag_line : forall c tag sp s end_, py_blank c = false -> no_char ":"%char (c :: tag) -> spaces sp -> trimmed s -> blanks end_ ->
  after_tag (strip ((c :: tag) ++ sp ++ ":"%char :: " "%char :: s ++ end_)) = s.
Proof.
  intros c tag sp s end_ Hc Hn Hs Ht He.
  cbn [app]. rewrite strip_first by exact Hc.
  change (c :: tag ++ sp ++ ":"%char :: " "%char :: s ++ end_) with ((c :: tag) ++ sp ++ ":"%char :: " "%char :: s ++ end_).
  rewrite app_assoc. rewrite rstrip_stop by reflexivity. rewrite <- app_assoc. unfold after_tag. rewrite tag_cut by auto.
  apply (strip_rstrip [" "%char] s end_); auto. intros x [<-|[]]. reflexivity.
Qed.

Lemma word_stop : forall w c r, (forall x, In x w -> word_char x = true) -> word_char c = false -> word (w ++ c :: r) = (w, c :: r).
Proof.
  induction w as [|x w IH]; intros c r H Hc; cbn [app word]; [rewrite Hc; reflexivity|].
  rewrite (H x) by (left; reflexivity). rewrite IH; auto. intros y I. apply H. right. exact I.
Qed.

Lemma word_chars : forall c, word_char c = true -> c <> ":"%char /\ c <> "="%char /\ c <> "#"%char.
Proof. intros c H. repeat split; intros ->; vm_compute in H; discriminate H. Qed.

Lemma in_app4 : forall (A : Type) (x : A) a b, In x (a ++ b) <-> In x a \/ In x b.
Proof. intros. split; [apply in_app_or|apply in_or_app]. Qed.

Lemma element_not_comment : forall c s, c <> "#"%char -> element_of (c :: s)
  = (let s := c :: s in
      if tagged [lit "supDomain"; lit "domainGroup"] s then Ok (Some (KGroupDomain, domain_opts s))
      else if tagged [lit "domain"] s then Ok (Some (KDomain, domain_opts s))
      else if match_path s then Ok (Some (KPath, path_opts s))
      else if tagged [lit "supConf"; lit "confGroup"; lit "confType"] s then Ok (Some (KGroupConf, tag_opts s))
      else if tagged [lit "conf"] s then Ok (Some (KConf, tag_opts s))
      else if match_operator s then Ok (Some (KOperator, EOpts (strip (strip s)) [] [] false))
      else if match_rule s then Ok (Some (KRule, rule_opts s))
      else if tagged [lit "component"] s then Ok (Some (KGroupPath, tag_opts s))
      else Err).
Proof.
  intros c s H. destruct c as [b0 b1 b2 b3 b4 b5 b6 b7].
  destruct b0, b1, b2, b3, b4, b5, b6, b7; try reflexivity. contradiction H. reflexivity.
Qed.

Lemma blanks_no : forall s, blanks s -> ~ In ":"%char s /\ ~ In "="%char s.
Proof. intros s H. split; intros I; specialize (H _ I); vm_compute in H; discriminate H. Qed.

Lemma spaces_no : forall s c, spaces s -> c <> " "%char -> ~ In c s.
Proof. intros s c H N I. apply N. apply H. exact I. Qed.

Lemma domain_line_opts : forall c tag sp s end_, py_blank c = false -> no_char ":"%char (c :: tag) -> spaces sp -> trimmed s -> blanks end_ ->
  domain_opts ((c :: tag) ++ sp ++ ":"%char :: " "%char :: s ++ end_)
  = match cut " "%char s with
    | (a, Some b) => EOpts (strip a) [] [] (str_eqb (strip b) (lit "sequenceAware"))
    | (a, None) => EOpts (strip a) [] [] false
    end.
Proof. intros. unfold domain_opts. rewrite after_tag_line by auto. reflexivity. Qed.

Lemma tag_line_opts : forall c tag sp s end_, py_blank c = false -> no_char ":"%char (c :: tag) -> spaces sp -> trimmed s -> blanks end_ ->
  tag_opts ((c :: tag) ++ sp ++ ":"%char :: " "%char :: s ++ end_) = EOpts s [] [] false.
Proof. intros. unfold tag_opts. rewrite after_tag_line by auto. rewrite strip_trimmed by auto. reflexivity. Qed.

Ltac chars_no := let I := fresh in intros I; cbn in I; repeat (destruct I as [I|I]; [discriminate I|]); try contradiction.

(** Comparison of a tag with the one of the line. *)
Fixpoint meet (p q : str) : option (str + str) :=
  match p, q with
  | [], _ => Some (inl q)
  | x :: p', [] => Some (inr p)
  | x :: p', y :: q' => if char_eqb x y then meet p' q' else None
  end.

Lemma starts_with_meet : forall p q s, starts_with p (q ++ s)
  = match meet p q with Some (inl q') => Some (q' ++ s) | Some (inr p') => starts_with p' s | None => None end.
Proof.
  induction p as [|x p IH]; intros q s; [reflexivity|]. destruct q as [|y q]; [reflexivity|]. cbn [app starts_with meet].
  destruct (char_eqb x y); [apply IH|reflexivity].
Qed.

Definition not_sep (x : ascii) : bool := negb (char_eqb x " "%char) && negb (char_eqb x ":"%char).
Definition tag_clear (q t : str) : bool :=
  match meet t q with Some (inl (x :: _)) => not_sep x | Some (inr (x :: _)) => not_sep x | _ => true end.
Definition tag_is (q t : str) : bool := match meet t q with Some (inl []) => true | _ => false end.

Lemma meet_inr : forall p q z, meet p q = Some (inr z) -> z <> [].
Proof.
  induction p as [|x p IH]; intros q z H; [discriminate H|]. destruct q as [|y q]; [injection H as <-; discriminate|].
  cbn [meet] in H. destruct (char_eqb x y); [eauto|discriminate H].
Qed.

Lemma not_sep_spec : forall x, not_sep x = true -> x <> " "%char /\ x <> ":"%char.
Proof.
  intros x H. unfold not_sep in H. apply andb_true_iff in H. destruct H as [H1 H2].
  split; intros ->; [rewrite char_eqb_refl in H1; discriminate H1|rewrite char_eqb_refl in H2; discriminate H2].
Qed.

Lemma tagged_lit : forall tags q sp r, spaces sp -> forallb (tag_clear q) tags = true ->
  tagged tags (q ++ sp ++ ":"%char :: r) = existsb (tag_is q) tags.
Proof.
  intros tags q sp r Hs. unfold tagged. induction tags as [|t tags IH]; intros H; [reflexivity|]. cbn [forallb] in H.
  apply andb_true_iff in H. destruct H as [Ht H]. cbn [existsb]. rewrite (IH H). f_equal. rewrite starts_with_meet.
  unfold tag_clear in Ht. unfold tag_is. destruct (meet t q) as [[q'|p']|] eqn:E; [| |reflexivity].
  - destruct q' as [|x q'].
    + cbn [app]. rewrite skip_spaces_to; [apply char_eqb_refl|exact Hs|discriminate].
    + apply not_sep_spec in Ht. destruct Ht as [N1 N2]. cbn [app skip_spaces]. rewrite (char_eqb_neq _ _ N1). apply char_eqb_neq. exact N2.
  - apply meet_inr in E. destruct p' as [|x p']; [contradiction|]. apply not_sep_spec in Ht. destruct Ht as [N1 N2].
    destruct sp as [|y sp]; cbn [app starts_with].
    + rewrite (char_eqb_neq _ _ N2). reflexivity.
    + rewrite (Hs y) by (left; reflexivity). rewrite (char_eqb_neq _ _ N1). reflexivity.
Qed.

Lemma two_ways : forall (x y : ascii) a b u v, a ++ x :: u = b ++ y :: v -> x <> y -> ~ In y a -> ~ In x b -> False.
Proof.
  induction a as [|c a IH]; intros b u v E N Ha Hb.
  - destruct b as [|d b]; cbn [app] in E; injection E as E1 _; [contradiction|]. apply Hb. left. auto.
  - destruct b as [|d b]; cbn [app] in E; injection E as E1 E2; [apply Ha; left; auto|].
    apply (IH b u v E2 N); intros I; [apply Ha|apply Hb]; right; exact I.
Qed.

Lemma tagged_shape : forall tags s, tagged tags s = true -> exists t sp r, In t tags /\ spaces sp /\ s = t ++ sp ++ ":"%char :: r.
Proof.
  intros tags s H. unfold tagged in H. apply existsb_exists in H. destruct H as [t [It H]].
  destruct (starts_with t s) as [r|] eqn:E; [|discriminate H]. apply starts_with_Some in E. subst s.
  assert (exists sp, spaces sp /\ r = sp ++ skip_spaces r) as [sp [Hs Es]].
  { clear. induction r as [|c r [sp [Hs IH]]]; [exists []; split; [intros c []|reflexivity]|]. cbn [skip_spaces].
    destruct (char_eqb c " "%char) eqn:E.
    - apply char_eqb_eq in E. subst c. exists (" "%char :: sp). split; [intros x [<-|I]; auto|]. cbn [app]. f_equal. exact IH.
    - exists []. split; [intros x []|reflexivity]. }
  destruct (skip_spaces r) as [|c q]; [discriminate H|]. apply char_eqb_eq in H. subst c. exists t, sp, q. rewrite <- Es. auto.
Qed.

Lemma path_untagged : forall tags a b, ~ In ":"%char a -> (forall t, In t tags -> ~ In "="%char t) -> tagged tags (a ++ "="%char :: b) = false.
Proof.
  intros tags a b Ha Ht. destruct (tagged tags _) eqn:E; auto. exfalso. apply tagged_shape in E. destruct E as [t [sp [r [It [Hs E]]]]].
  rewrite app_assoc in E. apply (two_ways "="%char ":"%char a (t ++ sp) b r E); [discriminate|exact Ha|].
  intros I. apply in_app_or in I. destruct I as [I|I]; [exact (Ht t It I)|]. specialize (Hs _ I). discriminate Hs.
Qed.

Lemma not_in_cons : forall (x c : ascii) s, x <> c -> ~ In x s -> ~ In x (c :: s).
Proof. intros x c s N H [I|I]; auto. Qed.

Lemma not_in_app : forall (x : ascii) a b, ~ In x a -> ~ In x b -> ~ In x (a ++ b).
Proof. intros x a b H1 H2 I. apply in_app_or in I. tauto. Qed.

Ltac lit_no := let I := fresh in intros I; vm_compute in I; repeat (destruct I as [I|I]; [discriminate I|]); exact I.

Lemma rule_not_component : forall sp r, spaces sp -> match_rule (lit "component" ++ sp ++ ":"%char :: r) = false.
Proof.
  intros sp r Hs. unfold match_rule. destruct sp as [|y sp].
  - change ([] ++ ":"%char :: r) with (":"%char :: r). rewrite word_stop; [reflexivity| |reflexivity].
    intros x I. vm_compute in I. repeat (destruct I as [<-|I]; [reflexivity|]). destruct I.
  - pose proof (Hs y (or_introl eq_refl)) as Ey. subst y.
    change ((" "%char :: sp) ++ ":"%char :: r) with (" "%char :: sp ++ ":"%char :: r).
    rewrite word_stop; [| |reflexivity].
    + change (lit "component") with ("c"%char :: lit "omponent"). cbv beta iota.
      change (" "%char :: sp ++ ":"%char :: r) with ((" "%char :: sp) ++ ":"%char :: r).
      rewrite skip_spaces_to by (auto || discriminate). reflexivity.
    + intros x I. vm_compute in I. repeat (destruct I as [<-|I]; [reflexivity|]). destruct I.
Qed.

Lemma prefixes : forall (a b u v : str), a ++ u = b ++ v -> (exists q, a = b ++ q) \/ (exists q, b = a ++ q).
Proof.
  induction a as [|x a IH]; intros b u v E; [right; exists b; reflexivity|].
  destruct b as [|y b]; [left; exists (x :: a); reflexivity|]. cbn [app] in E. injection E as <- E.
  destruct (IH b u v E) as [[q ->]|[q ->]]; [left|right]; exists q; reflexivity.
Qed.

Lemma starts_no : forall p crit r, no_char " "%char p -> (forall q, crit <> p ++ q) -> starts_with p (crit ++ " "%char :: r) = None.
Proof.
  intros p crit r Hp H. destruct (starts_with p _) as [q|] eqn:E; [|reflexivity]. exfalso. apply starts_with_Some in E.
  destruct (prefixes _ _ _ _ E) as [[z Ez]|[z Ez]]; [exact (H z Ez)|]. subst p. rewrite <- app_assoc in E. apply app_inv_head in E.
  destruct z as [|c z]; [apply (H []); rewrite !app_nil_r; reflexivity|]. injection E as <- _. apply Hp. apply in_or_app. right. left. reflexivity.
Qed.

Definition all_tags : list str :=
  [lit "supDomain"; lit "domainGroup"; lit "domain"; lit "supConf"; lit "confGroup"; lit "confType"; lit "conf"; lit "component"].

Lemma element_tag : forall q c tag sp r, q = c :: tag -> c <> "#"%char -> spaces sp -> forallb (tag_clear q) all_tags = true ->
  element_of (q ++ sp ++ ":"%char :: r)
  = (let s := q ++ sp ++ ":"%char :: r in
      if existsb (tag_is q) [lit "supDomain"; lit "domainGroup"] then Ok (Some (KGroupDomain, domain_opts s))
      else if existsb (tag_is q) [lit "domain"] then Ok (Some (KDomain, domain_opts s))
      else if match_path s then Ok (Some (KPath, path_opts s))
      else if existsb (tag_is q) [lit "supConf"; lit "confGroup"; lit "confType"] then Ok (Some (KGroupConf, tag_opts s))
      else if existsb (tag_is q) [lit "conf"] then Ok (Some (KConf, tag_opts s))
      else if match_operator s then Ok (Some (KOperator, EOpts (strip (strip s)) [] [] false))
      else if match_rule s then Ok (Some (KRule, rule_opts s))
      else if existsb (tag_is q) [lit "component"] then Ok (Some (KGroupPath, tag_opts s))
      else Err).
Proof.
  intros q c tag sp r Eq Hc Hs H. cbv zeta. rewrite <- !(tagged_lit _ q sp r Hs).
  { subst q. cbn [app]. rewrite element_not_comment by exact Hc. reflexivity. }
  all: cbn [all_tags forallb] in *; repeat (apply andb_true_iff in H; let K := fresh in destruct H as [K H]);
    repeat match goal with E : tag_clear _ _ = true |- _ => try rewrite E; clear E end; reflexivity.
Qed.

Lemma domain_line_opts' : forall q c tag sp s end_, q = c :: tag -> py_blank c = false -> no_char ":"%char q -> spaces sp -> trimmed s -> blanks end_ ->
  domain_opts (q ++ sp ++ ":"%char :: " "%char :: s ++ end_)
  = match cut " "%char s with
    | (a, Some b) => EOpts (strip a) [] [] (str_eqb (strip b) (lit "sequenceAware"))
    | (a, None) => EOpts (strip a) [] [] false
    end.
Proof. intros q c tag sp s end_ ->. apply domain_line_opts. Qed.

Lemma tag_line_opts' : forall q c tag sp s end_, q = c :: tag -> py_blank c = false -> no_char ":"%char q -> spaces sp -> trimmed s -> blanks end_ ->
  tag_opts (q ++ sp ++ ":"%char :: " "%char :: s ++ end_) = EOpts s [] [] false.
Proof. intros q c tag sp s end_ ->. apply tag_line_opts. Qed.

Lemma domain_line : forall tag k sp s end_,
  In (tag, k) [(lit "domain", KDomain); (lit "domainGroup", KGroupDomain); (lit "supDomain", KGroupDomain)] ->
  spaces sp -> trimmed s -> blanks end_ ->
  element_of (tag ++ sp ++ ":"%char :: " "%char :: s ++ end_)
  = Ok (Some (k, match cut " "%char s with
                 | (a, Some b) => EOpts (strip a) [] [] (str_eqb (strip b) (lit "sequenceAware"))
                 | (a, None) => EOpts (strip a) [] [] false
                 end))
  /\ exists c r, tag ++ sp ++ ":"%char :: " "%char :: s ++ end_ = c :: r /\ py_blank c = false.
Proof.
  intros tag k sp s end_ I Hs Ht He.
  destruct I as [E|[E|[E|[]]]]; injection E as <- <-; (split; [|eexists; eexists; split; [reflexivity|reflexivity]]).
  - rewrite (element_tag (lit "domain") _ _ sp _ eq_refl) by (discriminate || exact Hs || reflexivity). cbv zeta.
    change (existsb (tag_is (lit "domain")) [lit "supDomain"; lit "domainGroup"]) with false.
    change (existsb (tag_is (lit "domain")) [lit "domain"]) with true. cbv iota.
    rewrite (domain_line_opts' (lit "domain") _ _ sp s end_ eq_refl); auto. lit_no.
  - rewrite (element_tag (lit "domainGroup") _ _ sp _ eq_refl) by (discriminate || exact Hs || reflexivity). cbv zeta.
    change (existsb (tag_is (lit "domainGroup")) [lit "supDomain"; lit "domainGroup"]) with true. cbv iota.
    rewrite (domain_line_opts' (lit "domainGroup") _ _ sp s end_ eq_refl); auto. lit_no.
  - rewrite (element_tag (lit "supDomain") _ _ sp _ eq_refl) by (discriminate || exact Hs || reflexivity). cbv zeta.
    change (existsb (tag_is (lit "supDomain")) [lit "supDomain"; lit "domainGroup"]) with true. cbv iota.
    rewrite (domain_line_opts' (lit "supDomain") _ _ sp s end_ eq_refl); auto. lit_no.
Qed.

Lemma group_line : forall tag sp s end_, In tag [lit "supConf"; lit "confGroup"; lit "confType"] ->
  spaces sp -> trimmed s -> no_char "="%char s -> blanks end_ ->
  element_of (tag ++ sp ++ ":"%char :: " "%char :: s ++ end_) = Ok (Some (KGroupConf, EOpts s [] [] false)).
Proof.
  intros tag sp s end_ I Hs Ht Hn He.
  assert (forall q, ~ In "="%char q -> match_path (q ++ sp ++ ":"%char :: " "%char :: s ++ end_) = false) as Hp.
  { intros q Hq. apply match_path_no. apply not_in_app; auto. apply not_in_app; [apply (spaces_no sp); [auto|discriminate]|].
    apply not_in_cons; [discriminate|]. apply not_in_cons; [discriminate|]. apply not_in_app; auto. apply blanks_no. exact He. }
  destruct I as [<-|[<-|[<-|[]]]].
  - rewrite (element_tag (lit "supConf") _ _ sp _ eq_refl) by (discriminate || exact Hs || reflexivity). cbv zeta.
    change (existsb (tag_is (lit "supConf")) [lit "supDomain"; lit "domainGroup"]) with false.
    change (existsb (tag_is (lit "supConf")) [lit "domain"]) with false.
    change (existsb (tag_is (lit "supConf")) [lit "supConf"; lit "confGroup"; lit "confType"]) with true.
    rewrite Hp by lit_no. cbv iota. rewrite (tag_line_opts' (lit "supConf") _ _ sp s end_ eq_refl); auto. lit_no.
  - rewrite (element_tag (lit "confGroup") _ _ sp _ eq_refl) by (discriminate || exact Hs || reflexivity). cbv zeta.
    change (existsb (tag_is (lit "confGroup")) [lit "supDomain"; lit "domainGroup"]) with false.
    change (existsb (tag_is (lit "confGroup")) [lit "domain"]) with false.
    change (existsb (tag_is (lit "confGroup")) [lit "supConf"; lit "confGroup"; lit "confType"]) with true.
    rewrite Hp by lit_no. cbv iota. rewrite (tag_line_opts' (lit "confGroup") _ _ sp s end_ eq_refl); auto. lit_no.
  - rewrite (element_tag (lit "confType") _ _ sp _ eq_refl) by (discriminate || exact Hs || reflexivity). cbv zeta.
    change (existsb (tag_is (lit "confType")) [lit "supDomain"; lit "domainGroup"]) with false.
    change (existsb (tag_is (lit "confType")) [lit "domain"]) with false.
    change (existsb (tag_is (lit "confType")) [lit "supConf"; lit "confGroup"; lit "confType"]) with true.
    rewrite Hp by lit_no. cbv iota. rewrite (tag_line_opts' (lit "confType") _ _ sp s end_ eq_refl); auto. lit_no.
Qed.

Lemma conf_line : forall tag k sp s end_,
  In (tag, k) [(lit "conf", KConf); (lit "confGroup", KGroupConf); (lit "confType", KGroupConf); (lit "supConf", KGroupConf); (lit "component", KGroupPath)] ->
  spaces sp -> trimmed s -> no_char "="%char s -> blanks end_ ->
  element_of (tag ++ sp ++ ":"%char :: " "%char :: s ++ end_) = Ok (Some (k, EOpts s [] [] false))
  /\ exists c r, tag ++ sp ++ ":"%char :: " "%char :: s ++ end_ = c :: r /\ py_blank c = false.
Proof.
  intros tag k sp s end_ I Hs Ht Hn He.
  assert (forall q, ~ In "="%char q -> match_path (q ++ sp ++ ":"%char :: " "%char :: s ++ end_) = false) as Hp.
  { intros q Hq. apply match_path_no. apply not_in_app; auto. apply not_in_app; [apply (spaces_no sp); [auto|discriminate]|].
    apply not_in_cons; [discriminate|]. apply not_in_cons; [discriminate|]. apply not_in_app; auto. apply blanks_no. exact He. }
  destruct I as [E|[E|[E|[E|[E|[]]]]]]; injection E as <- <-; (split; [|eexists; eexists; split; [reflexivity|reflexivity]]).
  - rewrite (element_tag (lit "conf") _ _ sp _ eq_refl) by (discriminate || exact Hs || reflexivity). cbv zeta.
    change (existsb (tag_is (lit "conf")) [lit "supDomain"; lit "domainGroup"]) with false.
    change (existsb (tag_is (lit "conf")) [lit "domain"]) with false.
    change (existsb (tag_is (lit "conf")) [lit "supConf"; lit "confGroup"; lit "confType"]) with false.
    change (existsb (tag_is (lit "conf")) [lit "conf"]) with true.
    rewrite Hp by lit_no. cbv iota. rewrite (tag_line_opts' (lit "conf") _ _ sp s end_ eq_refl); auto. lit_no.
  - apply group_line; auto. right. left. reflexivity.
  - apply group_line; auto. right. right. left. reflexivity.
  - apply group_line; auto. left. reflexivity.
  - rewrite (element_tag (lit "component") _ _ sp _ eq_refl) by (discriminate || exact Hs || reflexivity). cbv zeta.
    change (existsb (tag_is (lit "component")) [lit "supDomain"; lit "domainGroup"]) with false.
    change (existsb (tag_is (lit "component")) [lit "domain"]) with false.
    change (existsb (tag_is (lit "component")) [lit "supConf"; lit "confGroup"; lit "confType"]) with false.
    change (existsb (tag_is (lit "component")) [lit "conf"]) with false.
    change (existsb (tag_is (lit "component")) [lit "component"]) with true.
    rewrite Hp by lit_no.
    assert (match_operator (lit "component" ++ sp ++ ":"%char :: " "%char :: s ++ end_) = false) as -> by reflexivity.
    rewrite rule_not_component by exact Hs. cbv iota. rewrite (tag_line_opts' (lit "component") _ _ sp s end_ eq_refl); auto. lit_no.
Qed.

Lemma path_line : forall name s1 s2 value end_,
    name <> [] -> trimmed name -> no_char "="%char name -> no_char ":"%char name -> (forall r, name <> "#"%char :: r) ->
    blanks s1 -> blanks s2 -> trimmed value -> blanks end_ ->
    element_of (name ++ s1 ++ "="%char :: s2 ++ value ++ end_) = Ok (Some (KPath, EOpts name value [] false))
    /\ exists c r, name ++ s1 ++ "="%char :: s2 ++ value ++ end_ = c :: r /\ py_blank c = false.
Proof.
  intros name s1 s2 value end_ Hne Ht H1 H2 H3 Hs1 Hs2 Hv He. destruct name as [|c name]; [contradiction|].
  destruct Ht as [Ta Tb]. pose proof (Ta c name eq_refl) as Bc. split; [|exists c; eexists; split; [reflexivity|exact Bc]].
  cbn [app]. rewrite element_not_comment by (intros ->; apply (H3 name); reflexivity). cbv zeta.
  change (c :: name ++ s1 ++ "="%char :: s2 ++ value ++ end_) with ((c :: name) ++ s1 ++ "="%char :: s2 ++ value ++ end_).
  rewrite app_assoc.
  assert (~ In ":"%char ((c :: name) ++ s1)) as Nc by (apply not_in_app; [exact H2|apply blanks_no; exact Hs1]).
  assert (~ In "="%char ((c :: name) ++ s1)) as Ne by (apply not_in_app; [exact H1|apply blanks_no; exact Hs1]).
  rewrite !path_untagged; try exact Nc;
    try (intros t I; repeat (destruct I as [<-|I]; [lit_no|]); destruct I).
  rewrite match_path_yes by discriminate. do 3 f_equal. unfold path_opts.
  assert (strip (((c :: name) ++ s1) ++ "="%char :: s2 ++ value ++ end_) = ((c :: name) ++ s1) ++ "="%char :: rstrip (s2 ++ value ++ end_)) as ->.
  { cbn [app]. rewrite strip_first by exact Bc. change (c :: (name ++ s1) ++ "="%char :: s2 ++ value ++ end_) with ((c :: name ++ s1) ++ "="%char :: s2 ++ value ++ end_).
    rewrite rstrip_stop by reflexivity. reflexivity. }
  rewrite cut_at by exact Ne. rewrite strip_end by (auto; split; auto). rewrite strip_rstrip by auto. reflexivity.
Qed.

Lemma no_blank_of : forall x s, blanks s -> py_blank x = false -> ~ In x s.
Proof. intros x s H E I. specialize (H x I). congruence. Qed.

Lemma operator_line : forall name end_, name = lit "ANY" \/ name = lit "ALL" -> blanks end_ ->
  element_of (name ++ end_) = Ok (Some (KOperator, EOpts name [] [] false)) /\ exists c r, name ++ end_ = c :: r /\ py_blank c = false.
Proof.
  intros name end_ Hn He.
  assert (trimmed name) as Tn.
  { destruct Hn as [-> | ->]; split; intros c r E.
    - vm_compute in E. injection E as <- _. reflexivity.
    - destruct r as [|a [|b [|d r]]]; vm_compute in E; try discriminate E; [injection E as _ _ <-; reflexivity|].
      injection E as _ _ _ E. destruct r; discriminate E.
    - vm_compute in E. injection E as <- _. reflexivity.
    - destruct r as [|a [|b [|d r]]]; vm_compute in E; try discriminate E; [injection E as _ _ <-; reflexivity|].
      injection E as _ _ _ E. destruct r; discriminate E. }
  assert (~ In ":"%char (name ++ end_)) as Nc.
  { apply not_in_app; [destruct Hn as [-> | ->]; lit_no|apply blanks_no; exact He]. }
  assert (~ In "="%char (name ++ end_)) as Ne.
  { apply not_in_app; [destruct Hn as [-> | ->]; lit_no|apply blanks_no; exact He]. }
  assert (match_operator (name ++ end_) = true) as Mo by (destruct Hn as [-> | ->]; reflexivity).
  assert (exists c r, name = c :: r /\ c <> "#"%char /\ py_blank c = false) as [c [r [Ec [Hc Bc]]]].
  { destruct Hn as [-> | ->]; eexists; eexists; (split; [reflexivity|]); (split; [discriminate|reflexivity]). }
  split; [|exists c, (r ++ end_); rewrite Ec; auto].
  assert (strip (name ++ end_) = name) as Es by (apply strip_end; auto).
  rewrite Ec in *. cbn [app] in *. rewrite element_not_comment by exact Hc. cbv zeta.
  rewrite !tagged_no_colon by exact Nc. rewrite match_path_no by exact Ne. rewrite Mo, Es, strip_trimmed by exact Tn. reflexivity.
Qed.

Lemma rule_line_ok : forall crit verb state end_, plain_word crit ->
    (forall r, crit <> lit "ANY" ++ r) -> (forall r, crit <> lit "ALL" ++ r) ->
    In verb [lit "Is"; lit "IsNot"; lit "Includes"; lit "Excludes"] -> plain_word state -> blanks end_ ->
    element_of (crit ++ " "%char :: verb ++ " "%char :: state ++ end_) = Ok (Some (KRule, EOpts crit verb state false))
    /\ exists c r, crit ++ " "%char :: verb ++ " "%char :: state ++ end_ = c :: r /\ py_blank c = false.
Proof.
  intros crit verb state end_ Hc H1 H2 Hv Hs He.
  assert (plain_word verb) as Pv.
  { split; [destruct Hv as [<-|[<-|[<-|[<-|[]]]]]; discriminate|]. intros c I.
    destruct Hv as [<-|[<-|[<-|[<-|[]]]]]; vm_compute in I; repeat (destruct I as [<-|I]; [reflexivity|]); destruct I. }
  assert (forall w x, plain_word w -> x = ":"%char \/ x = "="%char -> ~ In x w) as Pn.
  { intros w x [_ Pw] Ex I. specialize (Pw x I). destruct Ex; subst x; vm_compute in Pw; discriminate Pw. }
  assert (forall x, x = ":"%char \/ x = "="%char -> ~ In x (crit ++ " "%char :: verb ++ " "%char :: state ++ end_)) as Nx.
  { intros x Ex. apply not_in_app; [apply Pn; auto|]. apply not_in_cons; [destruct Ex; subst x; discriminate|].
    apply not_in_app; [apply Pn; auto|]. apply not_in_cons; [destruct Ex; subst x; discriminate|].
    apply not_in_app; [apply Pn; auto|]. apply no_blank_of; [exact He|]. destruct Ex; subst x; reflexivity. }
  assert (match_operator (crit ++ " "%char :: verb ++ " "%char :: state ++ end_) = false) as Mo.
  { unfold match_operator. rewrite !starts_no; auto; lit_no. }
  assert (match_rule (crit ++ " "%char :: verb ++ " "%char :: state ++ end_) = true) as Mr.
  { unfold match_rule. rewrite word_stop; [| |reflexivity].
    - destruct crit as [|c crit]; [destruct Hc as [Hc _]; contradiction|]. rewrite char_eqb_refl. cbn [andb].
      apply existsb_exists. exists verb. split; [exact Hv|]. destruct state as [|x state]; [destruct Hs as [Hs _]; contradiction|].
      destruct Hs as [_ Hs]. pose proof (Hs x (or_introl eq_refl)) as Hx.
      destruct verb as [|y verb]; [destruct Pv as [Pv _]; contradiction|]. destruct Pv as [_ Pv]. pose proof (Pv y (or_introl eq_refl)) as Hy.
      change (" "%char :: (y :: verb) ++ " "%char :: (x :: state) ++ end_) with ([" "%char] ++ y :: verb ++ " "%char :: (x :: state) ++ end_).
      rewrite skip_spaces_to; [|intros z [<-|[]]; reflexivity|apply word_not_space; exact Hy].
      change (y :: verb ++ " "%char :: (x :: state) ++ end_) with ((y :: verb) ++ " "%char :: (x :: state) ++ end_).
      rewrite starts_with_app, char_eqb_refl. cbn [andb app].
      pose proof (skip_spaces_to [] x (state ++ end_)) as K. cbn [app] in K. rewrite K; [exact Hx|intros z []|apply word_not_space; exact Hx].
    - destruct Hc as [_ Hc]. exact Hc. }
  assert (strip (crit ++ " "%char :: verb ++ " "%char :: state ++ end_) = crit ++ " "%char :: verb ++ " "%char :: state) as Es.
  { replace (crit ++ " "%char :: verb ++ " "%char :: state ++ end_) with ((crit ++ (" "%char :: verb ++ [" "%char]) ++ state) ++ end_)
      by (rewrite <- !app_assoc; cbn [app]; rewrite <- !app_assoc; reflexivity).
    rewrite strip_end; auto.
    - cbn [app]. rewrite <- !app_assoc. reflexivity.
    - apply trimmed_app; [apply plain_trimmed; auto|apply plain_trimmed; auto|destruct Hc; auto|destruct Hs; auto]. }
  assert (rule_opts (crit ++ " "%char :: verb ++ " "%char :: state ++ end_) = EOpts crit verb state false) as Er.
  { unfold rule_opts. rewrite Es. rewrite cut_at by (apply plain_no_space; auto). rewrite cut_at by (apply plain_no_space; auto).
    rewrite !strip_trimmed by (apply plain_trimmed; auto). reflexivity. }
  destruct crit as [|c crit]; [destruct Hc as [Hc _]; contradiction|]. destruct Hc as [_ Hc]. pose proof (Hc c (or_introl eq_refl)) as Wc.
  split; [|exists c; eexists; split; [reflexivity|apply word_not_blank; exact Wc]].
  cbn [app] in *. rewrite element_not_comment by (apply (word_chars c Wc)). cbv zeta.
  rewrite !tagged_no_colon by (apply Nx; auto). rewrite match_path_no by (apply Nx; auto). rewrite Mo, Mr, Er. reflexivity.
Qed.

Lemma line_element : forall t k o, line_means t k o -> element_of t = Ok (Some (k, o)) /\ exists c r, t = c :: r /\ py_blank c = false.
Proof.
  intros t k o H. destruct H as [tag k sp name end_ I Hs Ht Hn He|tag k sp name end_ I Hs Ht Hne Hn He|tag k sp name end_ I Hs Ht Hn He
    |name s1 s2 value end_ Hne Ht H1 H2 H3 Hs1 Hs2 Hv He|name end_ Hn He|crit verb state end_ Hc H1 H2 Hv Hs He].
  - destruct (domain_line tag k sp name end_ I Hs Ht He) as [E X]. rewrite (cut_none _ _ Hn), strip_trimmed in E by exact Ht.
    split; [exact E|exact X].
  - assert (trimmed (name ++ lit " " ++ lit "sequenceAware")) as Tt.
    { apply trimmed_app; auto; [|discriminate]. split; intros c r E.
      - vm_compute in E. injection E as <- _. reflexivity.
      - assert (last (lit "sequenceAware") " "%char = c) as <- by (rewrite E; apply last_last). reflexivity. }
    destruct (domain_line tag k sp _ end_ I Hs Tt He) as [E X].
    change (lit " " ++ lit "sequenceAware") with (" "%char :: lit "sequenceAware") in E, X.
    rewrite (cut_at _ _ _ Hn), strip_trimmed in E by exact Ht.
    change (str_eqb (strip (lit "sequenceAware")) (lit "sequenceAware")) with true in E.
    rewrite <- app_assoc in E, X. split; [exact E|exact X].
  - exact (conf_line tag k sp name end_ I Hs Ht Hn He).
  - exact (path_line name s1 s2 value end_ Hne Ht H1 H2 H3 Hs1 Hs2 Hv He).
  - exact (operator_line name end_ Hn He).
  - exact (rule_line_ok crit verb state end_ Hc H1 H2 Hv Hs He).
Qed.

(** ** The lines of a file *)

Lemma indentation_tabs : forall d c r, c <> tab -> c <> " "%char -> indentation (repeat tab d ++ c :: r) = (repeat tab d, c :: r).
Proof.
  induction d as [|d IH]; intros c r H1 H2; cbn [repeat app indentation].
  - change (ascii_of_nat 9) with tab. rewrite (char_eqb_neq _ _ H1), (char_eqb_neq _ _ H2). reflexivity.
  - change (ascii_of_nat 9) with tab. rewrite char_eqb_refl. cbn [orb]. rewrite IH by auto. reflexivity.
Qed.

Lemma tabs_no_space : forall d, in_chars (repeat tab d) " "%char = false.
Proof. intros d. unfold in_chars. induction d as [|d IH]; [reflexivity|]. cbn [repeat existsb]. rewrite IH. reflexivity. Qed.

Lemma parse_line_means : forall d t k o, line_means t k o -> parse_line (repeat tab d ++ t) = Ok (Some (S d, (k, o))).
Proof.
  intros d t k o H. apply line_element in H. destruct H as [E [c [r [-> B]]]]. unfold parse_line.
  rewrite indentation_tabs by (intros ->; vm_compute in B; discriminate B). rewrite tabs_no_space, E. cbn [obind]. rewrite repeat_length. reflexivity.
Qed.

Lemma parse_line_nothing : forall line, says_nothing line -> parse_line line = Ok None.
Proof.
  intros line H. destruct H as [s H|d s]; unfold parse_line.
  - assert (exists a, indentation s = (a, [])) as [a ->]; [|reflexivity].
    induction s as [|c s IH]; [exists []; reflexivity|]. cbn [indentation].
    assert (char_eqb c (ascii_of_nat 9) || char_eqb c " "%char = true) as ->.
    { destruct (H c (or_introl eq_refl)) as [-> | ->]; reflexivity. }
    destruct IH as [a ->]; [intros x I; apply H; right; exact I|]. exists (c :: a). reflexivity.
  - rewrite indentation_tabs by discriminate. rewrite tabs_no_space. reflexivity.
Qed.

Definition popped (d : nat) (p : eparser) : list edd * list open := pop (List.length (ep_open p) - d) (ep_root p) (ep_open p).
Definition top_kind (l : list open) : ekind := match l with [] => KRoot | (k, _, _) :: _ => k end.
Definition gives (ns : list edd) (s : list edd * list open) : list edd * list open :=
  match snd s with
  | [] => (fst s ++ ns, [])
  | (k, o, c) :: r => (fst s, (k, o, c ++ ns) :: r)
  end.

Lemma give_length : forall n root l, List.length (snd (give n root l)) = List.length l.
Proof. intros n root [|[[k o] c] r]; reflexivity. Qed.

Lemma pop_length : forall n root l, List.length (snd (pop n root l)) = List.length l - n.
Proof.
  induction n as [|n IH]; intros root l; [cbn [pop snd]; lia|]. destruct l as [|[[k o] c] r]; [reflexivity|]. cbn [pop].
  destruct (give (Edd k o c) root r) as [root' r'] eqn:E. rewrite IH.
  pose proof (give_length (Edd k o c) root r) as L. rewrite E in L. cbn [snd] in L. rewrite L. cbn [List.length]. lia.
Qed.

Lemma pop_S : forall n root l, n < List.length l ->
  pop (S n) root l = match snd (pop n root l) with
                     | (k, o, c) :: r => give (Edd k o c) (fst (pop n root l)) r
                     | [] => pop n root l
                     end.
Proof.
  induction n as [|n IH]; intros root l H; destruct l as [|[[k o] c] r]; try (cbn [List.length] in H; lia).
  - cbn [pop fst snd]. destruct (give (Edd k o c) root r); reflexivity.
  - change (pop (S (S n)) root ((k, o, c) :: r)) with (let '(root', r') := give (Edd k o c) root r in pop (S n) root' r').
    change (pop (S n) root ((k, o, c) :: r)) with (let '(root', r') := give (Edd k o c) root r in pop n root' r').
    pose proof (give_length (Edd k o c) root r) as L. destruct (give (Edd k o c) root r) as [root' r']. cbn [snd] in L.
    apply IH. rewrite L. cbn [List.length] in H. lia.
Qed.

Lemma popped_S : forall d p, S d <= List.length (ep_open p) ->
  popped d p = match snd (popped (S d) p) with
               | (k, o, c) :: r => give (Edd k o c) (fst (popped (S d) p)) r
               | [] => popped (S d) p
               end.
Proof.
  intros d p H. unfold popped. replace (List.length (ep_open p) - d) with (S (List.length (ep_open p) - S d)) by lia.
  apply pop_S. lia.
Qed.

Lemma popped_length : forall d p, d <= List.length (ep_open p) -> List.length (snd (popped d p)) = d.
Proof. intros d p H. unfold popped. rewrite pop_length. lia. Qed.

Lemma gives_nil : forall s, gives [] s = s.
Proof. intros [root [|[[k o] c] r]]; unfold gives; cbn [fst snd]; rewrite app_nil_r; reflexivity. Qed.

Lemma gives_give : forall n ns s, gives ns (give n (fst s) (snd s)) = gives (n :: ns) s.
Proof. intros n ns [root [|[[k o] c] r]]; unfold gives; cbn [give fst snd]; rewrite <- app_assoc; reflexivity. Qed.

Lemma add_lines_app : forall a b p, add_lines p (a ++ b) = do q <- add_lines p a; add_lines q b.
Proof.
  induction a as [|l a IH]; intros b p; [reflexivity|]. cbn [app add_lines]. destruct (add_line p l); cbn [obind]; auto.
Qed.

Lemma written_parsed : forall d ns ls, written d ns ls -> forall p,
  d <= List.length (ep_open p) -> ep_rank p = List.length (ep_open p) ->
  Forall (shaped (top_kind (snd (popped d p)))) ns ->
  exists q, add_lines p ls = Ok q /\ d <= List.length (ep_open q) /\ ep_rank q = List.length (ep_open q)
    /\ popped d q = gives ns (popped d p).
Proof.
  intros d ns ls H. induction H as [d|d ns line ls Hn H IH|d t k o sub more ls1 ls2 Hm H1 IH1 H2 IH2]; intros p Hd Hr Hs.
  - exists p. rewrite gives_nil. auto.
  - cbn [add_lines]. unfold add_line. rewrite (parse_line_nothing _ Hn). cbn [obind]. apply IH; auto.
  - cbn [add_lines]. unfold add_line. rewrite (parse_line_means _ _ _ _ Hm). cbn [obind].
    assert (S (ep_rank p) <? S d = false) as -> by (apply Nat.ltb_ge; lia).
    replace (S d - 1) with d by lia. change (pop (List.length (ep_open p) - d) (ep_root p) (ep_open p)) with (popped d p).
    pose proof (popped_length d p Hd) as Lp. destruct (popped d p) as [root l] eqn:Ep. cbn [snd] in *.
    pose proof (Forall_inv Hs) as Hn. inversion Hn as [k1 o1 l1 Hperm Hsub]; subst.
    change (match l with [] => KRoot | (pk, _, _) :: _ => pk end) with (top_kind l). rewrite Hperm. cbn [obind].
    set (p1 := EParser root ((k, o, []) :: l) (S (List.length l))).
    assert (popped (S (List.length l)) p1 = (root, (k, o, []) :: l)) as E1.
    { unfold popped. cbn [p1 ep_open List.length]. replace (S (List.length l) - S (List.length l)) with 0 by lia. reflexivity. }
    destruct (IH1 p1) as [p2 [A2 [D2 [R2 P2]]]]; [cbn; lia|reflexivity|rewrite E1; exact Hsub|].
    rewrite E1 in P2. unfold gives in P2. cbn [fst snd app] in P2.
    assert (popped (List.length l) p2 = give (Edd k o sub) root l) as E2.
    { rewrite popped_S by exact D2. rewrite P2. reflexivity. }
    destruct (IH2 p2) as [p3 [A3 [D3 [R3 P3]]]]; [lia|exact R2| |].
    { rewrite E2. apply Forall_inv_tail in Hs. destruct l as [|[[k2 o2] c2] r2]; exact Hs. }
    exists p3. rewrite add_lines_app, A2. cbn [obind]. rewrite A3. split; [reflexivity|]. split; [exact D3|]. split; [exact R3|].
    rewrite P3, E2. exact (gives_give (Edd k o sub) more (root, l)).
Qed.

Lemma written_file : forall doc ls, written 0 doc ls -> Forall (shaped KRoot) doc -> parse_edd ls = Ok doc.
Proof.
  intros doc ls H Hs. unfold parse_edd. destruct (written_parsed 0 doc ls H (EParser [] [] 0)) as [q [A [D [R P]]]]; [cbn; lia|reflexivity|exact Hs|].
  rewrite A. cbn [obind]. unfold popped in P. rewrite Nat.sub_0_r in P. rewrite P. reflexivity.
Qed.

(** ** What comes out has the right shape *)

Fixpoint stack_ok (l : list open) : Prop :=
  match l with
  | [] => True
  | (k, o, c) :: r => permitted (top_kind r) k = true /\ Forall (shaped k) c /\ stack_ok r
  end.

Lemma give_ok : forall n root l, shaped (top_kind l) n -> Forall (shaped KRoot) root -> stack_ok l ->
  Forall (shaped KRoot) (fst (give n root l)) /\ stack_ok (snd (give n root l)).
Proof.
  intros n root [|[[k o] c] r] Hn Hr Hl; cbn [give fst snd stack_ok].
  - split; [|exact I]. apply Forall_app. split; [exact Hr|]. constructor; [exact Hn|constructor].
  - destruct Hl as [H1 [H2 H3]]. split; [exact Hr|]. split; [exact H1|]. split; [|exact H3]. apply Forall_app. split; [exact H2|].
    constructor; [exact Hn|constructor].
Qed.

Lemma pop_ok : forall n root l, Forall (shaped KRoot) root -> stack_ok l ->
  Forall (shaped KRoot) (fst (pop n root l)) /\ stack_ok (snd (pop n root l)).
Proof.
  induction n as [|n IH]; intros root l Hr Hl; [split; assumption|]. destruct l as [|[[k o] c] r]; [split; assumption|].
  cbn [pop]. destruct Hl as [H1 [H2 H3]].
  destruct (give_ok (Edd k o c) root r) as [G1 G2]; auto; [constructor; auto|].
  destruct (give (Edd k o c) root r) as [root' r']. apply IH; auto.
Qed.

Lemma add_lines_ok : forall ls p q, add_lines p ls = Ok q -> Forall (shaped KRoot) (ep_root p) -> stack_ok (ep_open p) ->
  Forall (shaped KRoot) (ep_root q) /\ stack_ok (ep_open q).
Proof.
  induction ls as [|line ls IH]; intros p q H Hr Hs; [injection H as <-; auto|]. cbn [add_lines] in H.
  destruct (add_line p line) as [p1| | |] eqn:E; try discriminate H. cbn [obind] in H. apply (IH p1 q H).
  - unfold add_line in E. destruct (parse_line line) as [[[rank [k o]]|]| | |]; cbn [obind] in E; try discriminate E; [|injection E as <-; exact Hr].
    destruct (S (ep_rank p) <? rank); [discriminate E|].
    destruct (pop_ok (List.length (ep_open p) - (rank - 1)) _ _ Hr Hs) as [G1 G2].
    destruct (pop (List.length (ep_open p) - (rank - 1)) (ep_root p) (ep_open p)) as [root l].
    destruct (permitted _ k); [|discriminate E]. injection E as <-. exact G1.
  - unfold add_line in E. destruct (parse_line line) as [[[rank [k o]]|]| | |]; cbn [obind] in E; try discriminate E; [|injection E as <-; exact Hs].
    destruct (S (ep_rank p) <? rank); [discriminate E|].
    destruct (pop_ok (List.length (ep_open p) - (rank - 1)) _ _ Hr Hs) as [G1 G2].
    destruct (pop (List.length (ep_open p) - (rank - 1)) (ep_root p) (ep_open p)) as [root l].
    destruct (permitted _ k) eqn:Ep; [|discriminate E]. injection E as <-. cbn [ep_open stack_ok]. split; [exact Ep|]. split; [constructor|exact G2].
Qed.

Lemma parsed_shaped : forall ls doc, parse_edd ls = Ok doc -> Forall (shaped KRoot) doc.
Proof.
  intros ls doc H. unfold parse_edd in H. destruct (add_lines _ ls) as [q| | |] eqn:E; try discriminate H. cbn [obind] in H. injection H as <-.
  destruct (add_lines_ok _ _ _ E) as [H1 H2]; [constructor|exact I|]. apply pop_ok; auto.
Qed.

(** A file is read or refused. *)
Lemma element_total : forall s, element_of s = Err \/ exists x, element_of s = Ok x.
Proof.
  intros s. destruct s as [|c s].
  - left. reflexivity.
  - destruct (ascii_dec c "#"%char) as [->|N]; [right; eexists; reflexivity|]. rewrite element_not_comment by exact N. cbv zeta.
    repeat match goal with |- context [if ?b then _ else _] => destruct b; [right; eexists; reflexivity|] end. left. reflexivity.
Qed.

Lemma parse_total : forall ls, parse_edd ls = Err \/ exists doc, parse_edd ls = Ok doc.
Proof.
  intros ls. unfold parse_edd. generalize (EParser [] [] 0). induction ls as [|l ls IH]; intros p; [right; eexists; reflexivity|].
  cbn [add_lines]. assert (add_line p l = Err \/ exists q, add_line p l = Ok q) as [->|[q ->]].
  { unfold add_line, parse_line. destruct (indentation l) as [i [|c r]]; [right; eexists; reflexivity|].
    destruct (in_chars i " "%char); [left; reflexivity|]. destruct (element_total (c :: r)) as [->|[x ->]]; [left; reflexivity|].
    cbn [obind]. destruct x as [[k o]|]; [|right; eexists; reflexivity]. cbn [obind].
    destruct (S (ep_rank p) <? S (List.length i)); [left; reflexivity|].
    destruct (pop (List.length (ep_open p) - (S (List.length i) - 1)) (ep_root p) (ep_open p)) as [root st].
    destruct (permitted _ k); [right; eexists; reflexivity|left; reflexivity]. }
  - left. reflexivity.
  - cbn [obind]. apply IH.
Qed.

Lemma written_operators : forall d ns ls, written d ns ls -> Forall operators_ok ns.
Proof.
  intros d ns ls H. induction H as [d|d ns line ls Hn H IH|d t k o sub more ls1 ls2 Hm H1 IH1 H2 IH2]; [constructor|exact IH|].
  constructor; [|exact IH2]. constructor; [|exact IH1]. intros ->. inversion Hm; subst; auto.
  - repeat match goal with I : In _ (_ :: _) |- _ => destruct I as [I|I]; [discriminate I|] end. destruct H.
  - repeat match goal with I : In _ (_ :: _) |- _ => destruct I as [I|I]; [discriminate I|] end. destruct H.
  - repeat match goal with I : In _ (_ :: _) |- _ => destruct I as [I|I]; [discriminate I|] end. destruct H.
Qed.
