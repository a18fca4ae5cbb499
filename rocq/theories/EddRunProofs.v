(** Proofs: running the commands of an EDD file. *)
From Coq Require Import List Arith ZArith Bool Ascii String Lia Permutation.
From Verif Require Import Base BaseProofs CriterionModel RuleModel RuleSpec RuleProofs TreeModel TreeSpec TreeProofs SyncModel DomainModel DomainSpec DomainInv DomainProofs DomainsInv MgrModel MgrSpec MgrProofs MgrSkel ConfigProofs2 DomXmlRound EditProofs
  XmlModel DomXmlModel DomXmlSpec DomXmlHist CatSpec CatProofs RemoteModel RemoteSpec CommandModel CommandSpec ReportModel ReportSpec GenModel GenSpec EddModel EddSpec EddProofs EddLineProofs EddMeanProofs EddRunSpec.
Import ListNotations.
Local Open Scope nat_scope.

(** ** From the script to the commands *)

Definition conf_cmds (w v : place) : list cmd :=
  CCreateConfig (full_domain w) (full_conf v) :: CSetRule (full_domain w) (full_conf v) (rule_for v)
  :: (if is_aware w then [CSequence (full_domain w) (full_conf v) (elements [] (target v))] else [])
  ++ map (fun s => CSetConfigParameter (full_domain w) (full_conf v) (fst s) (snd s)) (sets (target v)).

Definition dom_cmds (w : place) : list cmd :=
  CCreateDomain (full_domain w)
  :: (if is_aware w then [CSequenceAware (full_domain w) true] else [])
  ++ map (CAddElement (full_domain w)) (added w)
  ++ flat_map (conf_cmds w) (confs_of w).

(** The commands are carried out one after the other, all with success. *)
Inductive succeed (y : system) : mgr -> list cmd -> mgr -> Prop :=
| su_nil : forall m, succeed y m [] m
| su_cons : forall m c m' r m'', step y m c = Ok (true, m') -> succeed y m' r m'' -> succeed y m (c :: r) m''.

Lemma succeed_app : forall y a b m m', succeed y m (a ++ b) m' <-> exists m1, succeed y m a m1 /\ succeed y m1 b m'.
Proof.
  intros y. induction a as [|c a IH]; intros b m m'; cbn [app].
  - split; [intros H; exists m; split; [constructor|exact H]|]. intros [m1 [H1 H2]]. inversion H1; subst. exact H2.
  - split.
    + intros H. inversion H as [|? ? m2 ? ? S1 S2]; subst. apply IH in S2. destruct S2 as [m1 [A B]]. exists m1. split; [econstructor; eauto|exact B].
    + intros [m1 [A B]]. inversion A as [|? ? m2 ? ? S1 S2]; subst. econstructor; eauto. apply IH. eauto.
Qed.

Lemma trimmed_tidy : forall l l', Forall tidy l -> Forall2 RemoteSpec.trimmed l l' -> l' = l.
Proof.
  intros l l' F H. induction H as [|s t l l' T H IH]; [reflexivity|]. pose proof (Forall_inv F) as Fs. apply Forall_inv_tail in F. rewrite (IH F). f_equal.
  destruct T as [p [q [-> [Hp [Hq _]]]]]. destruct Fs as [_ [_ [_ [_ [_ [B1 B2]]]]]].
  destruct p as [|c p]; [|exfalso; apply (B1 c (p ++ t ++ q) eq_refl); exact (Forall_inv Hp)].
  destruct q as [|c q] using rev_ind; [rewrite app_nil_r; reflexivity|].
  exfalso. apply (B2 c (t ++ q)); [rewrite <- app_assoc; reflexivity|]. apply Forall_app in Hq. destruct Hq as [_ Hq]. exact (Forall_inv Hq).
Qed.

Lemma one_word : forall w s, words [w] s -> s = w.
Proof. intros w s H. inversion H; subst; [reflexivity|]. match goal with X : words [] _ |- _ => inversion X end. Qed.

(** Each request of the script that succeeds is the command it should be. *)
Lemma request_cmd : forall os y need m n args m', does os y need m n args true m' ->
  forall c, (forall c', means need n args c' -> c' = c) -> (forall i, ~ imports n args i) -> step y m c = Ok (true, m').
Proof.
  intros os y need m n args m' D c U N. inversion D; subst.
  - rewrite <- (U _ H). assumption.
  - exfalso. eapply N. eassumption.
  - exfalso. eapply N. eassumption.
Qed.

Lemma req_name : forall s args, as_request (lit s :: args) = (s, args).
Proof. intros s args. unfold as_request, lit. rewrite string_of_list_ascii_of_string. reflexivity. Qed.

Lemma all_cmds : forall os y need (cmds : list EddModel.command) (cs : list cmd) m bs m',
  Forall2 (fun c k => exists s args, c = lit s :: args /\ (forall k', means need s args k' -> k' = k) /\ (forall i, ~ imports s args i)) cmds cs ->
  Forall (Forall tidy) cmds -> all_do os y need m (map as_request cmds) bs m' -> Forall (eq true) bs -> succeed y m cs m'.
Proof.
  intros os y need cmds cs m bs m' F. revert m bs. induction F as [|c k cmds cs [s [args [-> [U N]]]] F IH]; intros m bs T A B; cbn [map] in A.
  - inversion A; subst. constructor.
  - rewrite req_name in A. inversion A as [|? ? ? args' ? b m1 bs' ? Tr D A']; subst. pose proof (Forall_inv B) as <-. apply Forall_inv_tail in B.
    pose proof (Forall_inv T) as T1. apply Forall_inv_tail in T1. apply Forall_inv_tail in T. rewrite (trimmed_tidy _ _ T1 Tr) in D.
    econstructor; [eapply request_cmd; eauto|]. eapply IH; eauto.
Qed.

Ltac is_cmd := eexists; eexists; split; [reflexivity|]; split;
  [intros k' M; inversion M; subst; try reflexivity; try (match goal with X : words [_] _ |- _ => apply one_word in X; subst end; reflexivity)
  |intros i I; inversion I].

Lemma Forall2_map_both : forall (A B C : Type) (R : B -> C -> Prop) (f : A -> B) (g : A -> C) l, (forall x, In x l -> R (f x) (g x)) -> Forall2 R (map f l) (map g l).
Proof.
  intros A B C R f g. induction l as [|x l IH]; intros H; cbn [map]; constructor; [apply H; left; reflexivity|]. apply IH. intros z I. apply H. right. exact I.
Qed.

Lemma Forall2_flat : forall (A B C : Type) (R : B -> C -> Prop) (f : A -> list B) (g : A -> list C) l, (forall x, In x l -> Forall2 R (f x) (g x)) ->
  Forall2 R (flat_map f l) (flat_map g l).
Proof.
  intros A B C R f g. induction l as [|x l IH]; intros H; cbn [flat_map]; [constructor|]. apply Forall2_app; [apply H; left; reflexivity|]. apply IH. intros z I. apply H. right. exact I.
Qed.

Definition is_request (need : list nat) (c : EddModel.command) (k : cmd) : Prop :=
  exists s args, c = lit s :: args /\ (forall k', means need s args k' -> k' = k) /\ (forall i, ~ imports s args i).

Lemma conf_requests : forall need w v, Forall2 (is_request need) (conf_script (full_domain w) (is_aware w) v) (conf_cmds w v).
Proof.
  intros need w v. unfold conf_script, conf_cmds. constructor; [is_cmd|]. constructor; [is_cmd|]. apply Forall2_app.
  - destruct (is_aware w); constructor; [|constructor]. is_cmd.
  - apply Forall2_map_both. intros s _. is_cmd.
Qed.

Lemma dom_requests : forall need w, Forall2 (is_request need) (domain_script w) (dom_cmds w).
Proof.
  intros need w. unfold domain_script, dom_cmds. constructor; [is_cmd|]. apply Forall2_app.
  - destruct (is_aware w); constructor; [|constructor]. is_cmd.
  - apply Forall2_app.
    + apply Forall2_map_both. intros s _. is_cmd.
    + apply Forall2_flat. intros v _. apply conf_requests.
Qed.

Lemma script_succeeds : forall os y need doc m bs m', Forall (Forall tidy) (EddSpec.script doc) ->
  all_do os y need m (map as_request (EddSpec.script doc)) bs m' -> failures bs = 0 -> succeed y m (flat_map dom_cmds (domains_of doc)) m'.
Proof.
  intros os y need doc m bs m' T A B. eapply all_cmds; [|exact T|exact A|].
  - unfold EddSpec.script. apply Forall2_flat. intros w _. apply dom_requests.
  - unfold failures in B. apply Forall_forall. intros b I. destruct b; [reflexivity|]. exfalso.
    assert (In false (filter negb bs)) as J by (apply filter_In; auto). destruct (filter negb bs); [destruct J|discriminate B].
Qed.

(** ** What is seen *)

Definition view_step (root : elem) (cs : list criterion) (c : cmd) (l : list vdom) : option (list vdom) :=
  if editing c then let (b, l') := edit root (parsed_of cs c) c l in if b then Some l' else None else Some l.

Fixpoint view_run (root : elem) (cs : list criterion) (cmds : list cmd) (l : list vdom) : option (list vdom) :=
  match cmds with
  | [] => Some l
  | c :: r => match view_step root cs c l with Some l' => view_run root cs r l' | None => None end
  end.

Lemma view_run_app : forall root cs a b l, view_run root cs (a ++ b) l = match view_run root cs a l with Some l' => view_run root cs b l' | None => None end.
Proof. intros root cs. induction a as [|c a IH]; intros b l; cbn [app view_run]; [reflexivity|]. destruct (view_step root cs c l); auto. Qed.

(** The commands of a script. *)
Definition scripted (c : cmd) : bool :=
  match c with
  | CCreateDomain _ | CSequenceAware _ _ | CAddElement _ _ | CCreateConfig _ _ | CSetRule _ _ _ | CSequence _ _ _ | CSetConfigParameter _ _ _ _ => true
  | _ => false
  end.

Lemma scripted_cmds : forall ws, Forall (fun c => scripted c = true) (flat_map dom_cmds ws).
Proof.
  intros ws. apply Forall_forall. intros c H. apply in_flat_map in H. destruct H as [w [_ H]]. unfold dom_cmds in H.
  destruct H as [<-|H]; [reflexivity|]. apply in_app_iff in H. destruct H as [H|H]; [destruct (is_aware w); [destruct H as [<-|[]]; reflexivity|destruct H]|].
  apply in_app_iff in H. destruct H as [H|H]; [apply in_map_iff in H; destruct H as [e [<- _]]; reflexivity|].
  apply in_flat_map in H. destruct H as [v [_ H]]. unfold conf_cmds in H. destruct H as [<-|[<-|H]]; [reflexivity|reflexivity|].
  apply in_app_iff in H. destruct H as [H|H]; [destruct (is_aware w); [destruct H as [<-|[]]; reflexivity|destruct H]|].
  apply in_map_iff in H. destruct H as [s [<- _]]. reflexivity.
Qed.

Lemma set_recorded_keeps : forall y dn cn path v m b m', set_recorded y dn cn path v m = Ok (b, m') ->
  mg_crits m' = mg_crits m /\ mg_tuning m' = mg_tuning m /\ mg_fmt m' = mg_fmt m.
Proof.
  intros y dn cn path v m b m' H. unfold set_recorded in H. destruct (locate _ path); [|injection H as _ <-; auto].
  destruct (ds_find_blackboard _ _ _ _) as [[[d c] e]|]; [|injection H as _ <-; auto].
  destruct (access_set _ _ _ _ _ _) as [[ok bb]| | |]; try discriminate H. cbn [obind fst snd] in H.
  destruct (ds_edit _ _ _ _ _) as [[b2 s]| | |]; try discriminate H. cbn [obind fst snd] in H.
  destruct ok; [|injection H as _ <-; auto]. destruct (is_last d c); [|injection H as _ <-; auto].
  destruct (set_live_inv _ _ _ _ _ _ H) as [_ [Y [Z _]]]. split; [exact Y|]. split; [exact Z|].
  unfold set_live in H. destruct (param_of _ path) as [[q rest]|]; [|injection H as _ <-; reflexivity].
  unfold write_main in H. destruct (access_set _ _ _ _ _ _) as [[ok2 bb2]| | |]; try discriminate H. cbn [obind fst snd] in H.
  destruct ok2; [|injection H as _ <-; reflexivity]. destruct (sync_param _ _ _ _ _); injection H as _ <-; reflexivity.
Qed.

(** A command of the script that succeeds. *)
Lemma scripted_step : forall y m c m', system_ok y -> names_ok (sy_root y) -> history y m -> mg_tuning m = true -> scripted c = true -> step y m c = Ok (true, m') ->
  history y m' /\ mg_tuning m' = true /\ mg_crits m' = mg_crits m /\ mg_fmt m' = mg_fmt m /\ view_step (sy_root y) (mg_crits m) c (see m) = Some (see m').
Proof.
  intros y m c m' Sy Nm Hh T Sc H. assert (history y m') as Hh' by (econstructor; eauto). split; [exact Hh'|].
  destruct (history_sound y m Sy Hh) as [K [R C]]. unfold view_step. destruct (editing c) eqn:Ed.
  - destruct (edit_step y m c true m' Sy Nm K C Ed) as [s1 [-> E]]; [rewrite T, andb_false_r; reflexivity|exact H|].
    rewrite E. repeat split; auto.
  - assert (exists dn cn path v, c = CSetConfigParameter dn cn path v) as [dn [cn [path [v ->]]]].
    { destruct c; try discriminate Sc; try discriminate Ed. repeat eexists. }
    rewrite (other_step _ _ _ _ _ Sy K Ed H). cbn [step] in H.
    destruct (set_recorded_keeps _ _ _ _ _ _ _ _ H) as [X [Y Z]]. rewrite Y. auto.
Qed.

Lemma view_succeed : forall y cmds m m', system_ok y -> names_ok (sy_root y) -> history y m -> mg_tuning m = true -> Forall (fun c => scripted c = true) cmds -> succeed y m cmds m' ->
  history y m' /\ mg_tuning m' = true /\ mg_crits m' = mg_crits m /\ mg_fmt m' = mg_fmt m /\ view_run (sy_root y) (mg_crits m) cmds (see m) = Some (see m').
Proof.
  intros y cmds. induction cmds as [|c cmds IH]; intros m m' Sy Nm Hh T Sc H; inversion H as [|? ? m1 ? ? H1 H2]; subst; [auto|].
  destruct (scripted_step y m c m1 Sy Nm Hh T (Forall_inv Sc) H1) as [A1 [A2 [A3 [A4 A5]]]].
  destruct (IH m1 m' Sy Nm A1 A2 (Forall_inv_tail Sc) H2) as [B1 [B2 [B3 [B4 B5]]]].
  split; [exact B1|]. split; [exact B2|]. split; [congruence|]. split; [congruence|]. cbn [view_run]. rewrite A5. rewrite A3 in B5. exact B5.
Qed.

(** A path whose value was set is that of a parameter. *)
Lemma set_is_param : forall y m dn cn path v m', system_ok y -> step y m (CSetConfigParameter dn cn path v) = Ok (true, m') -> exists p, names_parameter (sy_root y) path p.
Proof.
  intros y m dn cn path v m' [[W _] _] S. cbn [step] in S.
  unfold set_recorded in S. destruct (locate (sy_root y) path) as [p|] eqn:P; [|discriminate S]. exists p. split; [exact P|].
  destruct (ds_find_blackboard _ _ _ _) as [[[d c] a]|]; [|discriminate S].
  destruct (locate_param _ _ _ W P) as [e [E1 E2]]. exists e. split; [exact E1|]. destruct (is_param (e_kind e)); [reflexivity|].
  exfalso. unfold access_set in S. rewrite E2 in S. cbn [obind fst snd] in S.
  destruct (ds_edit _ _ _ _ _) as [[b s]| | |]; discriminate S.
Qed.

Lemma succeed_In : forall y cmds m m' c, succeed y m cmds m' -> In c cmds -> exists m1 m2, step y m1 c = Ok (true, m2).
Proof.
  intros y cmds. induction cmds as [|k cmds IH]; intros m m' c H I; [destruct I|]. inversion H as [|? ? m1 ? ? H1 H2]; subst.
  destruct I as [->|I]; [eauto|]. eapply IH; eauto.
Qed.

(** ** What a domain's commands make of what is seen *)

Lemma pick_last : forall A (f : A -> bool) l x, pick f l = None -> pick f (l ++ [x]) = if f x then Some (l, x, []) else None.
Proof.
  intros A f. induction l as [|z l IH]; intros x H; cbn [pick app] in *; [destruct (f x); reflexivity|].
  destruct (f z); [discriminate H|]. destruct (pick f l) as [[[? ?] ?]|] eqn:E; [discriminate H|]. rewrite (IH x eq_refl). destruct (f x); reflexivity.
Qed.

Lemma on_dom_last : forall n f l x l', pick (dom_called n) l = None -> on_dom n f (l ++ [x]) = (true, l') -> exists x', f x = (true, x') /\ l' = l ++ [x'].
Proof.
  intros n f l x l' P H. unfold on_dom in H. rewrite (pick_last _ _ _ x P) in H. destruct (dom_called n x); [|discriminate H].
  destruct (f x) as [b x']. injection H as -> <-. exists x'. auto.
Qed.

Lemma on_conf_last : forall k f d l c d', vd_confs d = l ++ [c] -> pick (conf_called k) l = None -> on_conf k f d = (true, d') -> exists c', f c = (true, c') /\ d' = vd_with d (l ++ [c']).
Proof.
  intros k f d l c d' E P H. unfold on_conf in H. rewrite E, (pick_last _ _ _ c P) in H. destruct (conf_called k c); [|discriminate H].
  destruct (f c) as [b c']. injection H as -> <-. exists c'. auto.
Qed.

Lemma param_under : forall y p e q, system_ok y -> param_at (sy_root y) p e -> elem_at (sy_root y) q <> None -> CatSpec.under p q = true -> q = p.
Proof.
  intros y p e q Sy Hp Hq U. pose proof (param_leaf y p e Sy Hp) as Lf. destruct Hp as [Hp _]. revert Hp Hq U. generalize (sy_root y) as r. revert q.
  induction p as [|i p IH]; intros q r Hp Hq U.
  - destruct q as [|j q]; [reflexivity|]. exfalso. cbn [elem_at] in Hp. injection Hp as ->. apply Hq. cbn [elem_at]. rewrite Lf. destruct j; reflexivity.
  - destruct q as [|j q]; [discriminate U|]. cbn [CatSpec.under] in U. apply andb_true_iff in U. destruct U as [U1 U2]. apply Nat.eqb_eq in U1. subst j. f_equal.
    cbn [elem_at] in Hp, Hq. destruct (nth_error (e_children r) i) as [c|]; [|discriminate Hp]. exact (IH q c Hp Hq U2).
Qed.

Lemma filter_all : forall A (f : A -> bool) l, (forall x, In x l -> f x = true) -> filter f l = l.
Proof.
  intros A f. induction l as [|x l IH]; intros H; cbn [filter]; [reflexivity|]. rewrite (H x (or_introl eq_refl)). f_equal. apply IH. intros z I. apply H. right. exact I.
Qed.

Lemma filter_no : forall A (f : A -> bool) l, (forall x, In x l -> f x = false) -> filter f l = [].
Proof.
  intros A f. induction l as [|x l IH]; intros H; cbn [filter]; [reflexivity|]. rewrite (H x (or_introl eq_refl)). apply IH. intros z I. apply H. right. exact I.
Qed.

Lemma under_same : forall p, CatSpec.under p p = true.
Proof. induction p as [|i p IH]; cbn [CatSpec.under]; [reflexivity|]. rewrite Nat.eqb_refl. exact IH. Qed.

Lemma add_run : forall y cs D a paths E l l', system_ok y -> pick (dom_called D) l = None ->
  (forall s, In s paths -> exists p, names_parameter (sy_root y) s p) -> (forall q, In q E -> elem_at (sy_root y) q <> None) -> NoDup E ->
  view_run (sy_root y) cs (map (CAddElement D) paths) (l ++ [VDom D a E []]) = Some l' ->
  exists ps, Forall2 (names_parameter (sy_root y)) paths ps /\ l' = l ++ [VDom D a (E ++ ps) []] /\ (forall q, In q (E ++ ps) -> elem_at (sy_root y) q <> None) /\ NoDup (E ++ ps).
Proof.
  intros y cs D a. induction paths as [|s paths IH]; intros E l l' Sy P Hp He Nd H; cbn [map view_run] in H.
  - injection H as <-. exists []. rewrite app_nil_r. auto.
  - unfold view_step in H. cbn [editing edit] in H. destruct (Hp s (or_introl eq_refl)) as [p [Lp [e Pe]]]. rewrite Lp in H.
    match type of H with context [on_dom D ?f ?z] => destruct (on_dom D f z) as [b l1] eqn:Eo end. destruct b; [|discriminate H].
    destruct (on_dom_last _ _ _ _ _ P Eo) as [x' [Ef ->]]. cbn [vd_elems] in Ef. destruct (existsb _ E) eqn:Ex; [discriminate Ef|]. injection Ef as <-.
    assert (~ In p E) as Np.
    { intros I. enough (existsb (fun q => CatSpec.under q p) E = true) by congruence. apply existsb_exists. exists p. split; [exact I|apply under_same]. }
    unfold rearrange in H. cbn [vd_name vd_aware vd_elems vd_confs map] in H. rewrite filter_all in H.
    2: { intros q I. destruct (CatSpec.under p q) eqn:U; [|reflexivity]. exfalso. apply Np. rewrite <- (param_under y p e q Sy Pe (He q I) U). exact I. }
    destruct (IH (E ++ [p]) l l' Sy P) as [ps [F [-> [He' Nd']]]]; [intros z I; apply Hp; right; exact I| | |exact H|].
    + intros q I. apply in_app_iff in I. destruct I as [I|[<-|[]]]; [exact (He q I)|]. destruct Pe as [Pe _]. congruence.
    + apply NoDup_app_intro; [exact Nd|constructor; [intros []|constructor]|]. intros x I [<-|[]]. exact (Np I).
    + exists (p :: ps). rewrite <- app_assoc in He', Nd' |- *. cbn [app] in *. split; [constructor; [split; [exact Lp|exists e; exact Pe]|exact F]|]. auto.
Qed.

Lemma sets_run : forall root cs D C (sv : list (str * str)) l, view_run root cs (map (fun s => CSetConfigParameter D C (fst s) (snd s)) sv) l = Some l.
Proof. intros root cs D C. induction sv as [|s sv IH]; intros l; cbn [map view_run]; [reflexivity|]. unfold view_step. cbn [editing]. apply IH. Qed.

Lemma usable_all : forall known paths seen, List.length (usable known seen paths) = List.length paths ->
  usable known seen paths = paths /\ NoDup paths /\ (forall s, In s paths -> known s = true /\ ~ In s seen).
Proof.
  intros known. induction paths as [|s r IH]; intros seen H; cbn [usable] in *; [split; [reflexivity|]; split; [constructor|intros s []]|].
  destruct (known s && negb (existsb (str_eqb s) seen)) eqn:E; [|discriminate H]. cbn [List.length] in H. injection H as H.
  destruct (IH _ H) as [H1 [H2 H3]]. apply andb_true_iff in E. destruct E as [E1 E2]. apply negb_true_iff in E2. split; [rewrite H1; reflexivity|].
  assert (~ In s seen) as Ns. { intros I. enough (existsb (str_eqb s) seen = true) by congruence. apply existsb_exists. exists s. split; [exact I|apply str_eqb_eq; reflexivity]. }
  split; [constructor; [intros I; destruct (H3 s I) as [_ N]; apply N; left; reflexivity|exact H2]|].
  intros z [<-|I]; [auto|]. destruct (H3 z I) as [K N]. split; [exact K|]. intros J. apply N. right. exact J.
Qed.

Lemma filter_one : forall A (f : A -> bool) l x, NoDup l -> In x l -> f x = true -> (forall z, In z l -> f z = true -> z = x) -> filter f l = [x].
Proof.
  intros A f l x Nd I Fx U. apply in_split in I. destruct I as [l1 [l2 ->]]. rewrite filter_app. cbn [filter]. rewrite Fx.
  apply NoDup_remove_2 in Nd. rewrite !filter_no; [reflexivity| |]; intros z I; destruct (f z) eqn:Fz; auto; exfalso; apply Nd;
    rewrite <- (U z); auto; apply in_app_iff; cbn; auto; apply in_app_iff; cbn; auto.
Qed.

Lemma reorder_all : forall y paths E, system_ok y -> names_ok (sy_root y) -> NoDup E -> NoDup paths -> List.length paths = List.length E ->
  (forall q, In q E -> exists e, param_at (sy_root y) q e) -> (forall s, In s paths -> existsb (fun p => str_eqb (path_in (sy_root y) p) s) E = true) ->
  Forall2 (names_parameter (sy_root y)) paths (reorder (sy_root y) paths E).
Proof.
  intros y paths E Sy Nm NE NP Hl He Hk. set (root := sy_root y) in *. unfold reorder.
  assert (Ne : forall q, In q E -> elem_at root q <> None). { intros q I. destruct (He q I) as [e [X _]]. congruence. }
  rewrite (filter_no _ (fun p => negb (existsb (str_eqb (path_in root p)) paths))).
  2: { intros q I. apply negb_false_iff. apply existsb_exists. exists (path_in root q). split; [|apply str_eqb_eq; reflexivity].
       assert (incl (map (path_in root) E) paths) as X; [|apply X; apply in_map; exact I].
       apply NoDup_length_incl; [exact NP|rewrite map_length; lia|].
       intros s J. specialize (Hk s J). apply existsb_exists in Hk. destruct Hk as [p [Ip Ep]]. apply str_eqb_eq in Ep. rewrite <- Ep. apply in_map. exact Ip. }
  rewrite app_nil_r. clear Hl NP. induction paths as [|s paths IH]; cbn [flat_map]; [constructor|].
  pose proof (Hk s (or_introl eq_refl)) as Ks. apply existsb_exists in Ks. destruct Ks as [p [Ip Ep]].
  rewrite (filter_one _ _ E p NE Ip Ep).
  - cbn [app]. constructor; [|apply IH; intros z I; apply Hk; right; exact I]. apply str_eqb_eq in Ep. subst s. split; [apply locate_path; [exact Nm|exact (Ne p Ip)]|exact (He p Ip)].
  - intros z Iz Ez. apply str_eqb_eq in Ep, Ez. apply (path_inj root); auto. congruence.
Qed.

Lemma conf_run : forall y cs w v E K l l', system_ok y -> names_ok (sy_root y) -> pick (dom_called (full_domain w)) l = None ->
  NoDup E -> Forall2 (names_parameter (sy_root y)) (added w) E -> Permutation (added w) (elements [] (target v)) ->
  view_run (sy_root y) cs (conf_cmds w v) (l ++ [VDom (full_domain w) (is_aware w) E K]) = Some l' ->
  exists c, conf_as_said (sy_root y) cs w v c /\ l' = l ++ [VDom (full_domain w) (is_aware w) E (K ++ [c])].
Proof.
  intros y cs w v E K l l' Sy Nm P NE FE Pm H. unfold conf_cmds in H. cbn [view_run] in H.
  unfold view_step in H at 1. cbn [editing edit] in H.
  match type of H with context [on_dom ?D ?f ?z] => destruct (on_dom D f z) as [b l1] eqn:E1 end. destruct b; [|discriminate H].
  destruct (on_dom_last _ _ _ _ _ P E1) as [x' [F1 ->]]. cbn [vd_confs] in F1. destruct (pick (conf_called (full_conf v)) K) eqn:Pk; [discriminate F1|]. injection F1 as <-.
  clear E1. unfold vd_with in H. cbn [vd_name vd_aware vd_elems vd_confs] in H.
  unfold view_step in H at 1. cbn [editing edit parsed_of] in H.
  match type of H with context [on_dom ?D ?f ?z] => destruct (on_dom D f z) as [b l1] eqn:E1 end. destruct b; [|discriminate H].
  destruct (on_dom_last _ _ _ _ _ P E1) as [x' [F1 ->]]. clear E1. eapply on_conf_last in F1; [|reflexivity|exact Pk]. destruct F1 as [c' [F2 ->]].
  destruct (parse_text cs (rule_for v)) as [r| | |] eqn:Pr; try discriminate F2. injection F2 as <-.
  unfold vd_with in H. cbn [vd_name vd_aware vd_elems vd_confs vc_name vc_order] in H.
  assert (Rule : forall old, set_application_rule cs (rule_for v) old = Ok (true, Some r)).
  { intros old. unfold set_application_rule. rewrite Pr. reflexivity. }
  rewrite view_run_app in H. unfold conf_as_said. destruct (is_aware w) eqn:Aw.
  - cbn [view_run] in H. unfold view_step in H. cbn [editing edit] in H.
    match type of H with context [on_dom ?D ?f ?z] => destruct (on_dom D f z) as [b l1] eqn:E1 end. destruct b; [|discriminate H].
    rewrite sets_run in H. injection H as <-.
    destruct (on_dom_last _ _ _ _ _ P E1) as [x' [F1 ->]]. clear E1. eapply on_conf_last in F1; [|reflexivity|exact Pk]. destruct F1 as [c' [F2 ->]].
    cbn [vc_order vc_name vc_rule] in F2. apply pair_equal_spec in F2. destruct F2 as [F2 <-]. apply Nat.eqb_eq in F2.
    destruct (usable_all _ _ _ F2) as [U1 [U2 U3]]. rewrite U1.
    eexists. split; [|reflexivity]. cbn [vc_name vc_rule vc_order]. split; [reflexivity|]. split; [exists r; auto|].
    apply reorder_all; auto.
    + rewrite <- (Permutation_length Pm). exact (Forall2_len _ _ _ _ _ FE).
    + intros q I. clear - FE I. revert I. induction FE as [|s p a E [_ Hp] FE IH]; [intros []|intros [<-|I]; auto].
    + intros s I. apply U3. exact I.
  - cbn [view_run] in H. rewrite sets_run in H. injection H as <-.
    eexists. split; [|reflexivity]. cbn [vc_name vc_rule vc_order]. split; [reflexivity|]. split; [exists r; auto|]. exact FE.
Qed.

Lemma confs_run : forall y cs w E vs K l l', system_ok y -> names_ok (sy_root y) -> pick (dom_called (full_domain w)) l = None ->
  NoDup E -> Forall2 (names_parameter (sy_root y)) (added w) E -> (forall v, In v vs -> Permutation (added w) (elements [] (target v))) ->
  view_run (sy_root y) cs (flat_map (conf_cmds w) vs) (l ++ [VDom (full_domain w) (is_aware w) E K]) = Some l' ->
  exists ks, Forall2 (conf_as_said (sy_root y) cs w) vs ks /\ l' = l ++ [VDom (full_domain w) (is_aware w) E (K ++ ks)].
Proof.
  intros y cs w E. induction vs as [|v vs IH]; intros K l l' Sy Nm P NE FE Pm H; cbn [flat_map] in H.
  - cbn [view_run] in H. injection H as <-. exists []. rewrite app_nil_r. auto.
  - rewrite view_run_app in H. destruct (view_run _ _ (conf_cmds w v) _) as [l1|] eqn:E1; [|discriminate H].
    destruct (conf_run _ _ _ _ _ _ _ _ Sy Nm P NE FE (Pm v (or_introl eq_refl)) E1) as [c [Hc ->]].
    destruct (IH _ _ _ Sy Nm P NE FE (fun z I => Pm z (or_intror I)) H) as [ks [Hk ->]]. exists (c :: ks). rewrite <- app_assoc. auto.
Qed.

Lemma domain_run : forall y cs w l l', system_ok y -> names_ok (sy_root y) ->
  (forall s, In s (added w) -> exists p, names_parameter (sy_root y) s p) ->
  (forall v, In v (confs_of w) -> Permutation (added w) (elements [] (target v))) ->
  view_run (sy_root y) cs (dom_cmds w) l = Some l' -> exists d, domain_as_said (sy_root y) cs w d /\ l' = l ++ [d].
Proof.
  intros y cs w l l' Sy Nm Hp Pm H. unfold dom_cmds in H. cbn [view_run] in H. unfold view_step in H at 1. cbn [editing edit] in H.
  destruct (pick (dom_called (full_domain w)) l) eqn:P; [discriminate H|].
  rewrite view_run_app in H.
  assert (exists l1, view_run (sy_root y) cs (if is_aware w then [CSequenceAware (full_domain w) true] else []) (l ++ [VDom (full_domain w) false [] []]) = Some l1
            /\ (l1 = l ++ [VDom (full_domain w) (is_aware w) [] []])) as [l1 [V1 ->]].
  { destruct (view_run _ _ (if is_aware w then _ else _) _) as [l1|] eqn:E1; [|discriminate H]. exists l1. split; [reflexivity|].
    destruct (is_aware w); cbn [view_run] in E1; [|injection E1 as <-; reflexivity]. unfold view_step in E1. cbn [editing edit] in E1.
    match type of E1 with context [on_dom ?D ?f ?z] => destruct (on_dom D f z) as [b l2] eqn:Eo end. destruct b; [|discriminate E1]. injection E1 as <-.
    destruct (on_dom_last _ _ _ _ _ P Eo) as [x' [F1 ->]]. injection F1 as <-. reflexivity. }
  rewrite V1 in H. rewrite view_run_app in H.
  destruct (view_run _ _ (map _ (added w)) _) as [l2|] eqn:E2; [|discriminate H].
  destruct (add_run y cs (full_domain w) (is_aware w) (added w) [] l l2 Sy P Hp (fun q (I : In q []) => match I with end) (NoDup_nil _) E2) as [ps [F [-> [He Nd]]]].
  cbn [app] in *. destruct (confs_run _ _ _ _ _ _ _ _ Sy Nm P Nd F Pm H) as [ks [Fk ->]].
  eexists. split; [|reflexivity]. unfold domain_as_said. cbn [vd_name vd_aware vd_elems vd_confs app]. auto.
Qed.

(** ** The whole file *)

Lemma listed_place : forall n c w, In c (listed n) -> exists v, In v (places_in conf_places w [] (ed_children n)) /\ target v = c.
Proof.
  intros n. induction n as [k o l IH] using edd_rec'. intros c w H. cbn [listed] in H. cbn [ed_children]. apply in_app_iff in H.
  destruct H as [H|H]; apply in_flat_map in H; destruct H as [m [Im H]]; apply in_split in Im; destruct Im as [l1 [l2 El]].
  - exists ((l1, m) :: w). destruct m as [[] o' l']; try (destruct H; fail). destruct H as [<-|[]]. split; [|reflexivity].
    apply places_in_In. exists l1, (Edd KConf o' l'), l2. split; [exact El|]. left. reflexivity.
  - destruct m as [[] o' l']; try (destruct H; fail).
    rewrite Forall_forall in IH. destruct (IH (Edd KGroupConf o' l')) with (c := c) (w := (l1, Edd KGroupConf o' l') :: w) as [v [Iv Tv]];
      [rewrite El; apply in_app_iff; right; left; reflexivity|exact H|].
    exists v. split; [|exact Tv]. apply places_in_In. exists l1, (Edd KGroupConf o' l'), l2. split; [exact El|]. exact Iv.
Qed.

Lemma added_set : forall doc w s, Forall (shaped KRoot) doc -> Forall even doc -> In w (domains_of doc) -> In s (added w) ->
  exists v x, In v (confs_of w) /\ In (s, x) (sets (target v)).
Proof.
  intros doc w s S E Iw Is. unfold added in Is. destruct (listed (target w)) as [|c r] eqn:L; [destruct Is|].
  assert (exists v, In v (confs_of w) /\ target v = c) as [v [Iv Tv]].
  { destruct w as [|[b n] w]; [discriminate L|]. cbn [confs_of target] in *. apply listed_place. rewrite L. left. reflexivity. }
  exists v. subst c. pose proof (elements_sets (target v)) as Pm.
  apply (Permutation_in _ Pm) in Is. apply in_map_iff in Is. destruct Is as [[s' x] [<- Ix]]. exists x. auto.
Qed.

Lemma file_run : forall y cs ws l l', system_ok y -> names_ok (sy_root y) ->
  (forall w, In w ws -> (forall s, In s (added w) -> exists p, names_parameter (sy_root y) s p) /\ (forall v, In v (confs_of w) -> Permutation (added w) (elements [] (target v)))) ->
  view_run (sy_root y) cs (flat_map dom_cmds ws) l = Some l' -> exists ds, l' = l ++ ds /\ Forall2 (domain_as_said (sy_root y) cs) ws ds.
Proof.
  intros y cs. induction ws as [|w ws IH]; intros l l' Sy Nm Hw H; cbn [flat_map] in H.
  - injection H as <-. exists []. rewrite app_nil_r. auto.
  - rewrite view_run_app in H. destruct (view_run _ _ (dom_cmds w) _) as [l1|] eqn:E1; [|discriminate H].
    destruct (Hw w (or_introl eq_refl)) as [H1 H2]. destruct (domain_run _ _ _ _ _ Sy Nm H1 H2 E1) as [d [Hd ->]].
    destruct (IH _ _ Sy Nm (fun z I => Hw z (or_intror I)) H) as [ds [-> Hds]]. exists (d :: ds). rewrite <- app_assoc. auto.
Qed.

Lemma set_cmd_in : forall doc w v s x, In w (domains_of doc) -> In v (confs_of w) -> In (s, x) (sets (target v)) ->
  In (CSetConfigParameter (full_domain w) (full_conf v) s x) (flat_map dom_cmds (domains_of doc)).
Proof.
  intros doc w v s x Iw Iv Is. apply in_flat_map. exists w. split; [exact Iw|]. unfold dom_cmds. right. apply in_app_iff. right. apply in_app_iff. right.
  apply in_flat_map. exists v. split; [exact Iv|]. unfold conf_cmds. right. right. apply in_app_iff. right. apply in_map_iff. exists (s, x). auto.
Qed.

Lemma even_file : forall lines doc cmds, parse_edd lines = Ok doc -> Forall operators_ok doc -> edd_script lines = Ok cmds -> Forall even doc /\ cmds = EddSpec.script doc.
Proof.
  intros lines doc cmds H Ho E. unfold edd_script in E. rewrite H in E. cbn [obind] in E. destruct (commands_spec doc (parsed_shaped _ _ H) Ho) as [[X Y]|[_ X]].
  - rewrite Y in E. injection E as <-. auto.
  - rewrite X in E. discriminate E.
Qed.

Lemma file_built : forall os y need lines doc cmds m bs m', system_ok y -> names_ok (sy_root y) -> history y m -> mg_tuning m = true ->
  parse_edd lines = Ok doc -> Forall operators_ok doc -> edd_script lines = Ok cmds -> Forall (Forall tidy) cmds ->
  all_do os y need m (map as_request cmds) bs m' -> failures bs = 0 ->
  exists ds, see m' = see m ++ ds /\ Forall2 (domain_as_said (sy_root y) (mg_crits m)) (domains_of doc) ds.
Proof.
  intros os y need lines doc cmds m bs m' Sy Nm Hh T Hd Ho Hs Ht A B. destruct (even_file _ _ _ Hd Ho Hs) as [He ->]. pose proof (parsed_shaped _ _ Hd) as Sh.
  pose proof (script_succeeds _ _ _ _ _ _ _ Ht A B) as Su.
  destruct (view_succeed y _ m m' Sy Nm Hh T (scripted_cmds _) Su) as [_ [_ [_ [_ V]]]].
  apply (file_run _ _ _ _ _ Sy Nm) in V; [exact V|]. intros w Iw. split.
  - intros s Is. destruct (added_set doc w s Sh He Iw Is) as [v [x [Iv Ix]]].
    destruct (succeed_In _ _ _ _ _ Su (set_cmd_in _ _ _ _ _ Iw Iv Ix)) as [m1 [m2 E]]. exact (set_is_param _ _ _ _ _ _ _ Sy E).
  - intros v Iv. rewrite (added_sets doc w v Sh He Iw Iv). symmetry. apply elements_sets.
Qed.
