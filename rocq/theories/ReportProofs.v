(** Proofs about the texts that the remote commands answer. *)
From Coq Require Import List Arith ZArith Bool Ascii String Sorted Permutation Lia.
From Verif Require Import Base BaseProofs TextModel TextSpec TextProofs ParamTypeModel BitModel BlackboardModel TreeModel TreeSpec TreeProofs CriterionModel RuleModel SyncModel SyncProofs
  DomainModel DomainSpec DomainProofs MgrModel MgrSpec MgrProofs MgrSkel MgrProps ApplyProofs ConfigProofs2 ConfigProps ReadProofs ValueSpec ValueProofs ArrayModel ArraySpec ArrayProofs BlackboardProofs ParamTypeSpec RuleSpec RuleProofs XmlModel DomXmlModel StrucModel RemoteModel CommandModel CommandSpec CommandProofs CommandProps
  ReportModel ReportSpec.
Import ListNotations.
Local Open Scope nat_scope.

(** ** Texts *)

Lemma lines_text : forall ls, text_lines ls (lines ls).
Proof. induction ls as [|l ls IH]; [constructor|]. unfold lines. cbn [flat_map]. rewrite <- app_assoc. constructor. exact IH. Qed.

Lemma text_app : forall a b s t, text_lines a s -> text_lines b t -> text_lines (a ++ b) (s ++ t).
Proof. intros a b s t H K. induction H; [exact K|]. cbn [app]. rewrite <- app_assoc. cbn [app]. constructor. auto. Qed.

Lemma text_concat : forall ls ts, Forall2 text_lines ls ts -> text_lines (List.concat ls) (List.concat ts).
Proof. intros ls ts H. induction H; [constructor|]. cbn [List.concat]. apply text_app; auto. Qed.

Lemma separated_join : forall sep l, separated sep l (join sep l).
Proof.
  intros sep [|w l]; [constructor|]. revert w. induction l as [|x l IH]; intros w; [rewrite join_single; constructor|]. rewrite join_cons2. constructor. auto.
Qed.

(** ** The commands *)

Lemma process_known : forall y ev m name args k e a, nth_error table k = Some e -> en_name e = name -> str_eqb name (lit "help") = false -> en_min e <= List.length args ->
  en_plan e (ev_need ev) args = Ok a ->
  process y ev m (Request name args) = do x <- execute y ev a m;
    Ok (match fst x with
        | StDone => Answer (lit "Done") true
        | StSucceeded t => Answer t true
        | StUsage => Answer (usage e) false
        | StFailed => Answer (ev_error ev (Request name args) m) false
        end, snd x).
Proof.
  intros y ev m name args k e a N E H L P. unfold process. cbn [rq_command rq_args]. rewrite <- E at 1. rewrite (find_nth k e N), H.
  replace (List.length args <? en_min e) with false by (symmetry; apply Nat.ltb_ge; auto). rewrite P. reflexivity.
Qed.

(** Rewrites the processing of a known command whose plan is computed. *)
Ltac known :=
  match goal with |- context [process ?y ?ev ?m (Request (lit ?n) ?args)] =>
    let k := eval vm_compute in (position (lit n) table) in let t := eval cbv [nth_error table other] in (nth_error table k) in
    match t with Some ?e =>
      rewrite (process_known y ev m (lit n) args k e _ eq_refl eq_refl eq_refl ltac:(cbn [en_min List.length]; lia) ltac:(cbn [en_plan]; reflexivity)) end end.

Lemma answered_by : forall (y m : mgr) ev e (r : outcome (option str)) t (q : request), r = Ok (Some t) ->
  (do x <- (do o <- r; Ok (match o with Some t => StSucceeded t | None => StFailed end, m));
    Ok (match fst x with
        | StDone => Answer (lit "Done") true
        | StSucceeded t => Answer t true
        | StUsage => Answer (usage e) false
        | StFailed => Answer (ev_error ev q y) false
        end, snd x)) = Ok (Answer t true, m).
Proof. intros y m ev e r t q ->. reflexivity. Qed.

Lemma refused_by : forall (y m : mgr) ev e (r : outcome (option str)) (q : request), r = Ok None ->
  exists t, (do x <- (do o <- r; Ok (match o with Some t => StSucceeded t | None => StFailed end, m));
    Ok (match fst x with
        | StDone => Answer (lit "Done") true
        | StSucceeded t => Answer t true
        | StUsage => Answer (usage e) false
        | StFailed => Answer (ev_error ev q y) false
        end, snd x)) = Ok (Answer t false, m).
Proof. intros y m ev e r q ->. eexists. reflexivity. Qed.

(** A modelled answer is the answer. *)
Lemma reporting_text : forall os y ev name args m r, report os y name args m = Ok r -> ev_text (reporting os y ev) name args m = r.
Proof. intros os y ev name args m r H. unfold reporting. cbn [ev_text]. rewrite H. reflexivity. Qed.

(** The commands that take no argument, or one. *)
Definition listing (name : string) (n : nat) : Prop :=
  match n with
  | 0 => In name ["status"; "dumpDomains"; "getSystemClassXML"; "listAssociatedElements"; "listConflictingElements"; "listRogueElements"; "getDomainsWithSettingsXML";
                  "getDomainsXML"]
  | _ => In name ["listElements"; "listParameters"; "getElementStructureXML"; "getElementXML"; "dumpElement"; "showProperties"; "listBelongingDomains"; "listAssociatedDomains";
                  "getDomainWithSettingsXML"]
  end%string.

Lemma reported0 : forall os y ev m name args t, listing name 0 -> report os y (lit name) [] m = Ok (Some t) -> answers y (reporting os y ev) m name args t.
Proof.
  intros os y ev m name args t L H. unfold answers. cbn [listing In] in L.
  repeat (destruct L as [<-|L]; [known; unfold no_arg; cbn [execute ask]; apply answered_by; rewrite (reporting_text _ _ _ _ _ _ _ H); reflexivity|]). destruct L.
Qed.

Lemma reported1 : forall os y ev m name a args t, listing name 1 -> report os y (lit name) [a] m = Ok (Some t) -> answers y (reporting os y ev) m name (a :: args) t.
Proof.
  intros os y ev m name a args t L H. unfold answers. cbn [listing In] in L.
  repeat (destruct L as [<-|L]; [known; unfold one_arg; cbn [execute ask]; apply answered_by; rewrite (reporting_text _ _ _ _ _ _ _ H); reflexivity|]). destruct L.
Qed.

Lemma refused1 : forall os y ev m name a args, listing name 1 -> report os y (lit name) [a] m = Ok None -> refuses y (reporting os y ev) m name (a :: args).
Proof.
  intros os y ev m name a args L H. unfold refuses. cbn [listing In] in L.
  repeat (destruct L as [<-|L]; [known; unfold one_arg; cbn [execute ask]; apply refused_by; rewrite (reporting_text _ _ _ _ _ _ _ H); reflexivity|]). destruct L.
Qed.

(** ** The tree *)

(** The elements at and below a position, in the order of the structure. *)
Fixpoint below (e : elem) (p : list nat) : list (list nat * elem) :=
  (p, e) :: match e with
            | Elem _ _ cs => (fix go (cs : list elem) (i : nat) : list (list nat * elem) :=
                                match cs with [] => [] | c :: r => below c (p ++ [i]) ++ go r (S i) end) cs 0
            end.
Fixpoint belows (cs : list elem) (p : list nat) (i : nat) : list (list nat * elem) :=
  match cs with [] => [] | c :: r => below c (p ++ [i]) ++ belows r p (S i) end.

Lemma below_eq : forall e p, below e p = (p, e) :: belows (e_children e) p 0.
Proof.
  intros [n k cs] p. cbn [below e_children]. f_equal. generalize 0. induction cs as [|c cs IH]; intros i; cbn [belows]; auto. f_equal. apply IH.
Qed.

Lemma below_In : forall e p q c, In (q, c) (below e p) <-> exists r, q = p ++ r /\ elem_at e r = Some c.
Proof.
  intros e. induction e as [n k cs IH] using elem_ind_nested. intros p q c. rewrite below_eq. cbn [e_children].
  assert (forall i, In (q, c) (belows cs p i) <-> exists j d r, nth_error cs j = Some d /\ q = p ++ (i + j) :: r /\ elem_at d r = Some c) as G.
  { clear - IH. induction cs as [|d cs IHc]; intros i; cbn [belows].
    - split; [intros []|]. intros [[|j] [d [r [H _]]]]; discriminate.
    - inversion IH as [|? ? H1 H2]; subst. rewrite in_app_iff, (H1 (p ++ [i])), (IHc H2 (S i)). split.
      + intros [[r [-> E]]|[j [d' [r [N [-> E]]]]]].
        * exists 0, d, r. split; auto. rewrite <- app_assoc. replace (i + 0) with i by lia. auto.
        * exists (S j), d', r. split; auto. split; auto. f_equal. f_equal. lia.
      + intros [[|j] [d' [r [N [-> E]]]]].
        * left. injection N as <-. exists r. rewrite <- app_assoc. replace (i + 0) with i by lia. auto.
        * right. exists j, d', r. split; auto. split; auto. f_equal. f_equal. lia. }
  cbn [In]. rewrite (G 0). split.
  - intros [E|[j [d [r [N [-> E]]]]]].
    + injection E as -> <-. exists []. rewrite app_nil_r. auto.
    + exists (j :: r). split; auto. cbn [elem_at e_children]. rewrite N. auto.
  - intros [[|j r] [-> E]].
    + left. rewrite app_nil_r. cbn in E. congruence.
    + right. cbn [elem_at e_children] in E. destruct (nth_error cs j) as [d|] eqn:N; [|discriminate]. exists j, d, r. auto.
Qed.

Lemma sorted_app : forall (A : Type) (R : A -> A -> Prop) l1 l2, StronglySorted R l1 -> StronglySorted R l2 -> (forall x y, In x l1 -> In y l2 -> R x y) -> StronglySorted R (l1 ++ l2).
Proof.
  intros A R l1 l2 H1 H2 H. induction H1 as [|x l1 S IH F]; cbn [app]; auto. constructor.
  - apply IH. intros a b Ha Hb. apply H; [right|]; auto.
  - apply Forall_app. split; auto. apply Forall_forall. intros b Hb. apply H; [left|]; auto.
Qed.

Lemma sorted_filter : forall (A : Type) (R : A -> A -> Prop) f l, StronglySorted R l -> StronglySorted R (filter f l).
Proof.
  intros A R f l H. induction H as [|x l S IH F]; cbn [filter]; [constructor|]. destruct (f x); auto. constructor; auto. apply Forall_forall. intros b Hb. apply filter_In in Hb as [Hb _].
  rewrite Forall_forall in F. auto.
Qed.

Lemma below_sorted : forall e p, StronglySorted before (map fst (below e p)).
Proof.
  intros e. induction e as [n k cs IH] using elem_ind_nested. intros p. rewrite below_eq. cbn [e_children map fst].
  assert (forall i, (forall q, In q (map fst (belows cs p i)) -> exists j r, i <= j /\ q = p ++ j :: r) /\ StronglySorted before (map fst (belows cs p i))) as G.
  { induction cs as [|c cs IHc]; intros i; cbn [belows map].
    - split; [intros q []|constructor].
    - inversion IH as [|? ? H1 H2]; subst. destruct (IHc H2 (S i)) as [B S]. rewrite map_app.
      assert (forall q, In q (map fst (below c (p ++ [i]))) -> exists r, q = p ++ i :: r) as A.
      { intros q Hq. apply in_map_iff in Hq as [[q' d] [<- Hq]]. apply below_In in Hq as [r [-> _]]. exists r. cbn [fst]. rewrite <- app_assoc. auto. }
      split.
      + intros q Hq. apply in_app_iff in Hq as [Hq|Hq]; [destruct (A q Hq) as [r ->]; exists i, r; auto|destruct (B q Hq) as [j [r [L ->]]]; exists j, r; split; auto; lia].
      + apply sorted_app; [apply H1|exact S|]. intros q q' Hq Hq'. destruct (A q Hq) as [r ->]. destruct (B q' Hq') as [j [r' [L ->]]]. right. exists p, i, j, r, r'. split; [lia|auto]. }
  constructor; [apply (G 0)|]. apply Forall_forall. intros q Hq. destruct (proj1 (G 0) q Hq) as [j [r [_ ->]]]. left. exists (j :: r). split; auto. discriminate.
Qed.

Lemma before_irrefl : forall p, ~ before p p.
Proof.
  intros p [[r [N H]]|[r [i [j [s [t [L [H K]]]]]]]].
  - apply N. rewrite <- (app_nil_r p) in H at 1. apply app_inv_head in H. auto.
  - rewrite H in K. apply app_inv_head in K. injection K as K _. lia.
Qed.

Lemma sorted_nodup : forall l, StronglySorted before l -> NoDup l.
Proof. intros l H. induction H as [|x l S IH F]; constructor; auto. intros I. rewrite Forall_forall in F. apply (before_irrefl x). auto. Qed.

Lemma dive_text : forall root e p level, qualified_paths root true level e p
  = lines (map (fun x => qualified_path root (fst x) (snd x)) (filter (fun x => List.length (e_children (snd x)) =? 0) (below e p))).
Proof.
  intros root e. induction e as [n k cs IH] using elem_ind_nested. intros p level. rewrite below_eq. cbn [qualified_paths negb orb e_children filter snd].
  assert (forall i level, (fix go (cs : list elem) (i : nat) : str :=
              match cs with [] => [] | c :: r => qualified_paths root true level c (p ++ [i]) ++ go r (S i) end) cs i
    = lines (map (fun x => qualified_path root (fst x) (snd x)) (filter (fun x => List.length (e_children (snd x)) =? 0) (belows cs p i)))) as G.
  { clear - IH. induction cs as [|c cs IHc]; intros i level; cbn [belows]; auto. inversion IH as [|? ? H1 H2]; subst. rewrite H1, (IHc H2), filter_app, map_app. unfold lines. rewrite flat_map_app. auto. }
  rewrite (G 0 (S level)). destruct cs as [|c cs]; cbn [List.length Nat.eqb]; auto.
Qed.

Lemma flat_text : forall root e p, qualified_paths root false 0 e p
  = lines (qualified_path root p e :: map (fun i => match nth_error (e_children e) i with Some c => qualified_path root (p ++ [i]) c | None => [] end) (seq 0 (List.length (e_children e)))).
Proof.
  intros root [n k cs] p. cbn [qualified_paths negb orb e_children Nat.eqb]. unfold lines. cbn [flat_map]. fold (lines (map (fun i => match nth_error cs i with Some c => qualified_path root (p ++ [i]) c | None => [] end) (seq 0 (List.length cs)))). f_equal.
  enough (forall l i, l = skipn i cs -> (fix go (cs : list elem) (i : nat) : str :=
            match cs with [] => [] | c :: r => qualified_paths root false 1 c (p ++ [i]) ++ go r (S i) end) l i
    = lines (map (fun i => match nth_error cs i with Some c => qualified_path root (p ++ [i]) c | None => [] end) (seq i (List.length l)))) as G by (apply (G cs 0 eq_refl)).
  induction l as [|c l IH]; intros i E; cbn [List.length seq map]; auto.
  assert (nth_error cs i = Some c /\ l = skipn (S i) cs) as [N L].
  { clear - E. revert i E. induction cs as [|d cs IH]; intros [|i] E; cbn in *; try discriminate; [injection E as -> ->; auto|apply IH; auto]. }
  unfold lines. cbn [flat_map]. rewrite N. fold (lines (map (fun i => match nth_error cs i with Some c => qualified_path root (p ++ [i]) c | None => [] end) (seq (S i) (List.length l)))).
  rewrite <- (IH (S i) L). destruct c as [cn ck cc]. cbn [qualified_paths negb orb Nat.eqb e_children]. rewrite app_nil_r. reflexivity.
Qed.

Lemma slashes_none : forall a, a <> [] -> (Forall (fun c => c = "/"%char) a <-> path_items a = Some []).
Proof.
  intros [|c a] N; [congruence|]. unfold path_items. split.
  - intros H. assert (split (c :: a) (lit "/") true = []) as E.
    { apply split_merge_spec. constructor. intros x Hx. rewrite Forall_forall in H. rewrite (H x Hx). left. auto. }
    inversion H; subst. rewrite char_eqb_refl, E. auto.
  - destruct (char_eqb c "/") eqn:E; [|discriminate]. intros H. injection H as H. apply split_merge_spec in H. inversion H as [g G|g t|]; subst; auto.
    apply Forall_forall. intros x Hx. destruct (G x Hx) as [<-|[]]. auto.
Qed.

Lemma designates_root : forall root a p, designates root a p <-> locate_or_root root a = Some p.
Proof.
  intros root a p. unfold designates, locate_or_root. destruct a as [|c a].
  - cbn [path_items]. split; [intros [H|[H _]]; [auto|congruence]|auto].
  - pose proof (slashes_none (c :: a) ltac:(discriminate)) as S. destruct (path_items (c :: a)) as [[|i l]|] eqn:E.
    + split; [intros [H|[_ [_ ->]]]; auto; unfold locate in H; rewrite E in H; discriminate|]. intros H. injection H as <-. right. split; [discriminate|]. split; auto. apply S. auto.
    + split; [intros [H|[_ [H _]]]; auto; apply S in H; discriminate|auto].
    + split; [intros [H|[_ [H _]]]; auto; apply S in H; discriminate|auto].
Qed.

Lemma Forall2_map_r : forall (A B : Type) (P : A -> B -> Prop) f l, (forall x, In x l -> P x (f x)) -> Forall2 P l (map f l).
Proof. intros A B P f l H. induction l as [|x l IH]; cbn [map]; constructor; [apply H; left; auto|apply IH; intros; apply H; right; auto]. Qed.
Lemma Forall2_map_both : forall (A B C : Type) (P : B -> C -> Prop) (f : A -> B) (g : A -> C) l, (forall x, In x l -> P (f x) (g x)) -> Forall2 P (map f l) (map g l).
Proof. intros A B C P f g l H. induction l as [|x l IH]; cbn [map]; constructor; [apply H; left; auto|apply IH; intros; apply H; right; auto]. Qed.

Lemma list_elements : forall os y ev m a args p e, designates (sy_root y) a p -> elem_at (sy_root y) p = Some e ->
  exists t ls, answers y (reporting os y ev) m "listElements" (a :: args) t /\ text_lines ls t
    /\ Forall2 (qualified (sy_root y)) (p :: map (fun i => p ++ [i]) (seq 0 (List.length (e_children e)))) ls.
Proof.
  intros os y ev m a args p e D E. apply designates_root in D.
  eexists. eexists. split; [apply reported1; [cbn; tauto|]|].
  - change (report os y (lit "listElements") [a] m) with (at_path y (locate_or_root (sy_root y) a) (fun e p => tell (qualified_paths (sy_root y) false 0 e p))).
    rewrite D. cbn [at_path]. rewrite E, flat_text. reflexivity.
  - split; [apply lines_text|]. constructor; [exists e; auto|]. apply Forall2_map_both. intros i Hi. apply in_seq in Hi. destruct (nth_error (e_children e) i) as [c|] eqn:N.
    + exists c. split; auto. rewrite elem_at_app, E. cbn [elem_at]. rewrite N. auto.
    + apply nth_error_None in N. lia.
Qed.

Lemma list_parameters : forall os y ev m a args p e, designates (sy_root y) a p -> elem_at (sy_root y) p = Some e ->
  exists t ps ls, answers y (reporting os y ev) m "listParameters" (a :: args) t /\ text_lines ls t
    /\ Forall2 (qualified (sy_root y)) ps ls /\ StronglySorted before ps
    /\ forall q, In q ps <-> above p q /\ exists c, elem_at (sy_root y) q = Some c /\ e_children c = [].
Proof.
  intros os y ev m a args p e D E. apply designates_root in D. set (l := filter (fun x => List.length (e_children (snd x)) =? 0) (below e p)).
  exists (lines (map (fun x => qualified_path (sy_root y) (fst x) (snd x)) l)), (map fst l), (map (fun x => qualified_path (sy_root y) (fst x) (snd x)) l).
  assert (forall q c, In (q, c) l <-> above p q /\ elem_at (sy_root y) q = Some c /\ e_children c = []) as I.
  { intros q c. subst l. rewrite filter_In, below_In. cbn [snd]. rewrite Nat.eqb_eq. split.
    - intros [[r [-> H]] L]. split; [exists r; auto|]. split; [rewrite elem_at_app, E; auto|]. apply length_zero_iff_nil. auto.
    - intros [[r ->] [H L]]. rewrite elem_at_app, E in H. split; [exists r; auto|]. rewrite L. auto. }
  split; [apply reported1; [cbn; tauto|]|].
  - change (report os y (lit "listParameters") [a] m) with (at_path y (locate_or_root (sy_root y) a) (fun e p => tell (qualified_paths (sy_root y) true 0 e p))).
    rewrite D. cbn [at_path]. rewrite E, dive_text. reflexivity.
  - split; [apply lines_text|]. split; [|split].
    + apply Forall2_map_both. intros [q c] H. apply I in H as [_ [H _]]. exists c. auto.
    + subst l. clear. pose proof (below_sorted e p) as S. revert S. induction (below e p) as [|[q c] l IH]; intros S; [constructor|]. cbn [filter snd map fst] in *. inversion S as [|? ? S1 F]; subst.
      destruct (_ =? 0); [|auto]. cbn [map fst]. constructor; auto. rewrite Forall_forall in *. intros x Hx. apply F. apply in_map_iff in Hx as [z [<- Hz]]. apply in_map. apply filter_In in Hz. tauto.
    + intros q. rewrite in_map_iff. split.
      * intros [[q' c] [<- H]]. apply I in H as [A H]. split; auto. exists c. auto.
      * intros [A [c H]]. exists (q, c). split; auto. apply I. auto.
Qed.

Lemma list_refused : forall os y ev m a args name, In name ["listElements"; "listParameters"]%string -> (forall p, ~ designates (sy_root y) a p) -> refuses y (reporting os y ev) m name (a :: args).
Proof.
  intros os y ev m a args name I D.
  assert (locate_or_root (sy_root y) a = None) as N by (destruct (locate_or_root (sy_root y) a) eqn:E; auto; apply designates_root in E; destruct (D _ E)).
  destruct I as [<-|[<-|[]]]; (apply refused1; [cbn; tauto|]).
  - change (report os y (lit "listElements") [a] m) with (at_path y (locate_or_root (sy_root y) a) (fun e p => tell (qualified_paths (sy_root y) false 0 e p))). rewrite N. auto.
  - change (report os y (lit "listParameters") [a] m) with (at_path y (locate_or_root (sy_root y) a) (fun e p => tell (qualified_paths (sy_root y) true 0 e p))). rewrite N. auto.
Qed.

Lemma designates_elem : forall y a p, designates (sy_root y) a p -> exists e, elem_at (sy_root y) p = Some e.
Proof.
  intros y a p [H|[_ [_ ->]]]; [|exists (sy_root y); auto]. apply locate_sound in H as [H _]. destruct (elem_at (sy_root y) p) as [e|]; [exists e; auto|congruence].
Qed.

(** ** Domains of the elements *)

Lemma attached_In : forall at_ p id, In id (attached_to at_ p) <-> In (p, id) at_.
Proof.
  intros at_ p id. unfold attached_to. rewrite in_map_iff. split.
  - intros [[q i] [<- H]]. apply filter_In in H as [H E]. cbn [fst snd] in *. apply pos_eqb_eq in E. subst q. auto.
  - intros H. exists (p, id). split; auto. apply filter_In. split; auto. apply pos_eqb_refl.
Qed.

Lemma attached_nodup : forall at_ p, NoDup at_ -> NoDup (attached_to at_ p).
Proof.
  intros at_ p H. unfold attached_to. induction H as [|[q id] l N H IH]; cbn [filter map]; [constructor|]. cbn [fst]. destruct (pos_eqb q p) eqn:E; auto. cbn [map snd]. constructor; auto.
  apply pos_eqb_eq in E. subst q. intros I. apply N. apply (attached_In l p id). exact I.
Qed.

Lemma belonging_In : forall at_ p id, In id (belonging_domains at_ p) <-> exists r, above r p /\ In (r, id) at_.
Proof.
  intros at_ p id. unfold belonging_domains. cut (forall l, In id (belonging_up at_ l) <-> exists r, above r (rev l) /\ In (r, id) at_).
  { intros H. rewrite H, rev_involutive. reflexivity. }
  clear p. induction l as [|i l IH]; cbn [belonging_up].
  - rewrite app_nil_r, attached_In. cbn [rev]. split; [intros H; exists []; split; auto; exists []; auto|]. intros [r [[s Hs] H]]. symmetry in Hs. apply app_eq_nil in Hs as [-> _]. auto.
  - rewrite in_app_iff, attached_In, IH. split.
    + intros [H|[r [[s Hs] H]]]; [exists (rev (i :: l)); split; auto; apply above_refl|]. exists r. split; auto. exists (s ++ [i]). cbn [rev]. rewrite Hs, app_assoc. auto.
    + intros [r [[s Hs] H]]. destruct (list_eq_dec Nat.eq_dec s []) as [->|N].
      * left. rewrite app_nil_r in Hs. subst r. auto.
      * right. destruct (exists_last N) as [s' [x ->]]. cbn [rev] in Hs. rewrite app_assoc in Hs. apply app_inj_tail in Hs as [Hs _]. exists r. split; auto. exists s'. auto.
Qed.

Lemma nodup_app_intro : forall (A : Type) (l1 l2 : list A), NoDup l1 -> NoDup l2 -> (forall x, In x l1 -> ~ In x l2) -> NoDup (l1 ++ l2).
Proof.
  intros A l1 l2 H1 H2 H. induction H1 as [|x l1 N H1 IH]; cbn [app]; auto. constructor.
  - rewrite in_app_iff. intros [I|I]; [auto|]. apply (H x); [left|]; auto.
  - apply IH. intros z Hz. apply H. right. auto.
Qed.

Lemma belonging_nodup : forall y s p, domains_ok y s -> NoDup (belonging_domains (ds_att s) p).
Proof.
  intros y s p K. unfold belonging_domains. generalize (rev p). clear p. induction l as [|i l IH]; cbn [belonging_up].
  - rewrite app_nil_r. apply attached_nodup, (ds_att_once _ _ K).
  - apply nodup_app_intro; auto; [apply attached_nodup, (ds_att_once _ _ K)|]. intros id H1 H2. apply attached_In in H1.
    assert (In id (belonging_domains (ds_att s) (rev l))) as H3 by (unfold belonging_domains; rewrite rev_involutive; auto). apply belonging_In in H3 as [r [[t Ht] H3]].
    apply (ds_attached _ _ K) in H1 as [d [Hd [E Hp]]]. apply (ds_attached _ _ K) in H3 as [d' [Hd' [E' Hr]]].
    assert (d = d') as <-. { pose proof (ds_ids _ _ K) as N. subst id. clear - Hd Hd' E' N. induction (ds_list s) as [|x xs IHx]; [destruct Hd|]. cbn [map] in N. inversion N as [|? ? N1 N2]; subst.
      destruct Hd as [->|Hd], Hd' as [->|Hd']; auto; exfalso; apply N1; [rewrite <- E'; apply in_map; auto|rewrite E'; apply in_map; auto]. }
    assert (r <> rev (i :: l)) as Ne. { intros ->. cbn [rev] in Ht. assert (List.length (rev l) = List.length ((rev l ++ [i]) ++ t)) as L by congruence. rewrite !app_length in L. cbn [List.length] in L. lia. }
    destruct (dk_separate _ _ (ds_domain _ _ K d Hd)) as [_ U]. destruct (U _ _ Hr Hp Ne) as [U1 _]. apply U1. exists (t ++ [i]). cbn [rev]. rewrite Ht, app_assoc. auto.
Qed.

Lemma same_domain_id : forall y s d d', domains_ok y s -> In d (ds_list s) -> In d' (ds_list s) -> dm_id d = dm_id d' -> d = d'.
Proof.
  intros y s d d' K Hd Hd' E. pose proof (ds_ids _ _ K) as N. induction (ds_list s) as [|x xs IHx]; [destruct Hd|]. cbn [map] in N. inversion N as [|? ? N1 N2]; subst.
  destruct Hd as [->|Hd], Hd' as [->|Hd']; auto; exfalso; apply N1; [rewrite E; apply in_map; auto|rewrite <- E; apply in_map; auto].
Qed.

Lemma domain_name_of : forall y s d, domains_ok y s -> In d (ds_list s) -> domain_name s (dm_id d) = dm_name d.
Proof.
  intros y s d K Hd. unfold domain_name. destruct (find (fun x => dm_id x =? dm_id d) (ds_list s)) as [x|] eqn:F.
  - apply find_some in F as [F E]. apply Nat.eqb_eq in E. rewrite (same_domain_id y s x d K F Hd E). auto.
  - exfalso. pose proof (find_none _ _ F d Hd) as N. cbn beta in N. rewrite Nat.eqb_refl in N. discriminate.
Qed.

Lemma named_domains : forall y m ids, domains_ok y (mg_doms m) -> NoDup ids -> (forall id, In id ids -> exists d, In d (ds_list (mg_doms m)) /\ dm_id d = id) ->
  exists ds, map dm_name ds = map (domain_name (mg_doms m)) ids /\ List.length ds = List.length ids /\ exactly m (fun d => In (dm_id d) ids) ds.
Proof.
  intros y m ids K N. induction N as [|id ids N1 N IH]; intros H.
  - exists []. split; auto. split; auto. split; [constructor|]. intros d. split; [intros []|intros [_ []]].
  - destruct IH as [ds [E1 [E2 [E3 E4]]]]; [intros; apply H; right; auto|]. destruct (H id ltac:(left; auto)) as [d [Hd Ed]]. exists (d :: ds). split; [|split; [|split]].
    + cbn [map]. rewrite E1. f_equal. rewrite <- Ed. symmetry. apply (domain_name_of y); auto.
    + cbn [List.length]. auto.
    + constructor; auto. intros I. apply E4 in I as [_ I]. rewrite Ed in I. auto.
    + intros d'. cbn [In]. split.
      * intros [<-|I]; [auto|]. apply E4 in I. tauto.
      * intros [Hd' [E|I]]; [left; apply (same_domain_id y (mg_doms m)); auto; congruence|right; apply E4; auto].
Qed.

Lemma exactly_iff : forall m P Q ds, (forall d, In d (ds_list (mg_doms m)) -> (P d <-> Q d)) -> exactly m P ds -> exactly m Q ds.
Proof. intros m P Q ds H [N I]. split; auto. intros d. rewrite I. split; intros [A B]; split; auto; apply (H d A); auto. Qed.

Lemma associated_domains : forall y m p, domains_ok y (mg_doms m) ->
  exists ds, map dm_name ds = map (domain_name (mg_doms m)) (attached_to (ds_att (mg_doms m)) p) /\ exactly m (fun d => In p (dm_elems d)) ds.
Proof.
  intros y m p K. destruct (named_domains y m (attached_to (ds_att (mg_doms m)) p) K) as [ds [E1 [_ E2]]].
  - apply attached_nodup, (ds_att_once _ _ K).
  - intros id H. apply attached_In in H. apply (ds_attached _ _ K) in H as [d [Hd [E _]]]. exists d. auto.
  - exists ds. split; auto. revert E2. apply exactly_iff. intros d Hd. rewrite attached_In, (ds_attached _ _ K). split.
    + intros [d' [Hd' [E Hp]]]. rewrite <- (same_domain_id y _ d' d K Hd' Hd E). auto.
    + intros Hp. exists d. auto.
Qed.

Lemma covering_domains : forall y m p, domains_ok y (mg_doms m) ->
  exists ds, map dm_name ds = map (domain_name (mg_doms m)) (belonging_domains (ds_att (mg_doms m)) p)
    /\ List.length ds = List.length (belonging_domains (ds_att (mg_doms m)) p) /\ exactly m (fun d => covers d p) ds.
Proof.
  intros y m p K. destruct (named_domains y m (belonging_domains (ds_att (mg_doms m)) p) K) as [ds [E1 [E3 E2]]].
  - apply (belonging_nodup y); auto.
  - intros id H. apply belonging_In in H as [r [_ H]]. apply (ds_attached _ _ K) in H as [d [Hd [E _]]]. exists d. auto.
  - exists ds. split; auto. split; auto. revert E2. apply exactly_iff. intros d Hd. rewrite belonging_In. split.
    + intros [r [A H]]. apply (ds_attached _ _ K) in H as [d' [Hd' [E Hp]]]. rewrite <- (same_domain_id y _ d' d K Hd' Hd E). exists r. auto.
    + intros [r [Hr A]]. exists r. split; auto. apply (ds_attached _ _ K). exists d. auto.
Qed.

Lemma list_domains_of : forall os y ev m a args p, domains_ok y (mg_doms m) -> locate (sy_root y) a = Some p ->
  (exists t ds, answers y (reporting os y ev) m "listAssociatedDomains" (a :: args) t /\ text_lines (map dm_name ds) t /\ exactly m (fun d => In p (dm_elems d)) ds)
  /\ (exists t ds, answers y (reporting os y ev) m "listBelongingDomains" (a :: args) t /\ text_lines (map dm_name ds) t /\ exactly m (fun d => covers d p) ds).
Proof.
  intros os y ev m a args p K L. assert (exists e, elem_at (sy_root y) p = Some e) as [e E] by (apply locate_sound in L as [L _]; destruct (elem_at (sy_root y) p); [eauto|congruence]). split.
  - destruct (associated_domains y m p K) as [ds [E1 E2]]. eexists. exists ds. split; [apply reported1; [cbn; tauto|]|].
    + change (report os y (lit "listAssociatedDomains") [a] m) with (at_path y (locate (sy_root y) a) (fun _ p => tell (vertical (mg_doms m) (attached_to (ds_att (mg_doms m)) p)))). rewrite L. cbn [at_path]. rewrite E. reflexivity.
    + unfold vertical. rewrite <- E1. split; auto. apply lines_text.
  - destruct (covering_domains y m p K) as [ds [E1 [_ E2]]]. eexists. exists ds. split; [apply reported1; [cbn; tauto|]|].
    + change (report os y (lit "listBelongingDomains") [a] m) with (at_path y (locate (sy_root y) a) (fun _ p => tell (vertical (mg_doms m) (belonging_domains (ds_att (mg_doms m)) p)))). rewrite L. cbn [at_path]. rewrite E. reflexivity.
    + unfold vertical. rewrite <- E1. split; auto. apply lines_text.
Qed.

Lemma gathered_spec : forall order s, (forall l, Permutation (order l) l) ->
  NoDup (gathered_elements order s) /\ forall p, In p (gathered_elements order s) <-> exists d, In d (ds_list s) /\ In p (dm_elems d).
Proof.
  intros order s P. unfold gathered_elements. split.
  - apply (Permutation_NoDup (Permutation_sym (P _))), NoDup_nodup.
  - intros p. split.
    + intros H. apply (Permutation_in _ (P _)), nodup_In, in_flat_map in H. auto.
    + intros H. apply (Permutation_in _ (Permutation_sym (P _))), nodup_In, in_flat_map. auto.
Qed.

Lemma list_associated : forall os y ev m args, domains_ok y (mg_doms m) -> (forall l, Permutation (os_order os l) l) ->
  exists t ps ls, answers y (reporting os y ev) m "listAssociatedElements" args t /\ text_lines ls t /\ NoDup ps /\ (forall p, In p ps <-> owned m p)
    /\ Forall2 (fun p l => exists ds names, exactly m (fun d => In p (dm_elems d)) ds /\ separated (lit ", ") (map dm_name ds) names
                 /\ l = path_in (sy_root y) p ++ lit " [" ++ names ++ lit "]") ps ls.
Proof.
  intros os y ev m args K P. destruct (gathered_spec _ (mg_doms m) P) as [N G]. eexists. exists (gathered_elements (os_order os) (mg_doms m)). eexists. split; [apply reported0; [cbn; tauto|reflexivity]|].
  split; [apply lines_text|]. split; auto. split; [exact G|]. apply Forall2_map_r. intros p Hp. destruct (associated_domains y m p K) as [ds [E1 E2]]. exists ds. eexists. split; [exact E2|]. split; [|reflexivity].
  unfold horizontal. rewrite <- E1. apply separated_join.
Qed.

Lemma two_members : forall m P ds, exactly m P ds -> (1 < List.length ds <-> exists d d', In d (ds_list (mg_doms m)) /\ In d' (ds_list (mg_doms m)) /\ d <> d' /\ P d /\ P d').
Proof.
  intros m P ds [N I]. split.
  - intros L. destruct ds as [|d [|d' ds]]; cbn [List.length] in L; try lia. inversion N as [|? ? N1 _]; subst. exists d, d'. destruct (proj1 (I d) ltac:(cbn; auto)). destruct (proj1 (I d') ltac:(cbn; auto)).
    repeat split; auto. intros ->. apply N1. cbn. auto.
  - intros [d [d' [Hd [Hd' [Ne [Pd Pd']]]]]]. assert (In d ds /\ In d' ds) as [A B] by (split; apply I; auto). destruct ds as [|x [|z ds]]; cbn [List.length]; try lia; [destruct A|]. destruct A as [->|[]], B as [->|[]]. congruence.
Qed.

Lemma list_conflicting : forall os y ev m args, domains_ok y (mg_doms m) -> (forall l, Permutation (os_order os l) l) ->
  exists t ps ls, answers y (reporting os y ev) m "listConflictingElements" args t /\ text_lines ls t /\ NoDup ps /\ (forall p, In p ps <-> owned m p /\ shared m p)
    /\ (forall q, shared m q <-> exists p, In p ps /\ above p q)
    /\ Forall2 (fun p l => exists ds names, exactly m (fun d => covers d p) ds /\ separated (lit ", ") (map dm_name ds) names
                 /\ l = path_in (sy_root y) p ++ lit " contained in multiple domains: " ++ names) ps ls.
Proof.
  intros os y ev m args K P. destruct (gathered_spec _ (mg_doms m) P) as [N G]. eexists. exists (filter (fun p => 1 <? List.length (belonging_domains (ds_att (mg_doms m)) p)) (gathered_elements (os_order os) (mg_doms m))). eexists.
  split; [apply reported0; [cbn; tauto|reflexivity]|]. split; [apply lines_text|]. split; [apply NoDup_filter; auto|].
  assert (forall p, In p (filter (fun p => 1 <? List.length (belonging_domains (ds_att (mg_doms m)) p)) (gathered_elements (os_order os) (mg_doms m))) <-> owned m p /\ shared m p) as I.
  { intros p. rewrite filter_In, (G p), Nat.ltb_lt. destruct (covering_domains y m p K) as [ds [_ [E2 E3]]]. rewrite <- E2, (two_members m _ ds E3). unfold owned, shared. tauto. }
  split; [exact I|]. split.
  - intros q. split.
    + intros [d [d' [Hd [Hd' [Ne [[p [Hp A]] [p' [Hp' A']]]]]]]]. destruct (above_both p p' q A A') as [B|B].
      * exists p'. split; auto. apply I. split; [exists d'; auto|]. exists d, d'. split; auto. split; auto. split; auto. split; [exists p; auto|exists p'; split; auto; apply above_refl].
      * exists p. split; auto. apply I. split; [exists d; auto|]. exists d, d'. split; auto. split; auto. split; auto. split; [exists p; split; auto; apply above_refl|exists p'; auto].
    + intros [p [Hp A]]. apply I in Hp as [_ [d [d' [Hd [Hd' [Ne [[r [Hr B]] [r' [Hr' B']]]]]]]]]. exists d, d'. split; auto. split; auto. split; auto.
      split; [exists r|exists r']; split; auto; eapply above_trans; eauto.
  - apply Forall2_map_r. intros p Hp. destruct (covering_domains y m p K) as [ds [E1 [_ E2]]]. exists ds. eexists. split; [exact E2|]. split; [|reflexivity].
    unfold horizontal. rewrite <- E1. apply separated_join.
Qed.

(** ** Status and criteria *)

Lemma title_text : forall t rest, title t ++ rest = lines [[]; t; repeat "="%char (List.length t)] ++ rest.
Proof. intros t rest. unfold title, lines, nl. cbn [flat_map]. repeat first [rewrite <- app_assoc | progress cbn [app]]. reflexivity. Qed.

Lemma last_shown_name : forall y m d, system_ok y -> reachable y m -> In d (ds_list (mg_doms m)) -> last_shown d (last_name d).
Proof.
  intros y m d Sy R Hd. unfold last_shown, last_name. destruct (C26_last_applied_exists y m d Sy R Hd) as [E|[c [Hc [E [L _]]]]].
  - right. split; auto. unfold dm_last_config. rewrite E. reflexivity.
  - left. exists c. rewrite L. auto.
Qed.

Lemma pending_shown_name : forall m d, rules_ok m -> In d (ds_list (mg_doms m)) -> pending_shown (mg_crits m) d (pending_name (mg_crits m) d).
Proof.
  intros m d Ru Hd. unfold pending_shown, pending_name. assert (scoped (mg_crits m) d) as Sc by (intros c r Hc Hr; apply (Ru d c r); auto).
  destruct (dm_applicable (mg_crits m) d) as [c|] eqn:E.
  - right. exists c. split; [apply (applicable_first _ _ _ Sc); auto|]. unfold is_last. destruct (dm_last d) as [i|]; [|right; split; auto; discriminate].
    destruct (i =? cf_id c) eqn:Ei; [left|right]; split; auto; [apply Nat.eqb_eq in Ei; congruence|apply Nat.eqb_neq in Ei; congruence].
  - left. split; auto. apply (applicable_none _ _ Sc). auto.
Qed.

Lemma lines_app : forall a b, lines (a ++ b) = lines a ++ lines b.
Proof. intros a b. unfold lines. apply flat_map_app. Qed.

Lemma lines_cons : forall l ls, lines (l :: ls) = l ++ nl ++ lines ls.
Proof. intros l ls. unfold lines. cbn [flat_map]. rewrite <- app_assoc. reflexivity. Qed.

Lemma status_answer : forall os y ev m args, system_ok y -> reachable y m ->
  exists t body tail doms crits, answers y (reporting os y ev) m "status" args t /\ t = body ++ tail
    /\ text_lines (heading "General:"
                   ++ [lit "System Class: " ++ e_name (sy_root y); lit "Tuning Mode: " ++ onoff (mg_tuning m); lit "Value Space: " ++ lit (if mg_raw m then "raw" else "real");
                       lit "Output Raw Format: " ++ lit (if mg_hex m then "hex" else "dec"); lit "Auto Sync: " ++ onoff (mg_autosync m)]
                   ++ heading "Subsystems:" ++ map (fun i => path_in (sy_root y) [i]) (seq 0 (List.length (e_children (sy_root y))))
                   ++ heading "Last Applied [Pending] Configurations:" ++ doms
                   ++ heading "Selection Criteria:") body
    /\ Forall2 (domain_status (mg_crits m)) (ds_list (mg_doms m)) doms
    /\ separated [newline] crits tail
    /\ Forall2 (fun k line => line = cr_name k ++ lit " = " ++ state_shown k) (mg_crits m) crits.
Proof.
  intros os y ev m args Sy R. destruct (reachable_ok y m Sy R) as [_ [Ru _]]. eexists. eexists. eexists.
  exists (map (fun d => dm_name d ++ lit ": " ++ last_name d ++ lit " [" ++ pending_name (mg_crits m) d ++ lit "]") (ds_list (mg_doms m))), (map (described false true) (mg_crits m)).
  split; [apply reported0; [cbn [listing In]; tauto|reflexivity]|]. split; [|split; [apply lines_text|split; [|split]]]; cycle 1.
  - apply Forall2_map_r. intros d Hd. exists (last_name d), (pending_name (mg_crits m) d). split; [apply (last_shown_name y m); auto|]. split; auto. apply pending_shown_name; auto.
  - apply separated_join.
  - apply Forall2_map_r. intros k Hk. reflexivity.
  - unfold status_text, criteria_text, last_applied_text, children_paths, heading. rewrite !lines_app. rewrite <- !app_assoc.
    rewrite title_text. f_equal. rewrite !lines_cons. rewrite <- !app_assoc. unfold onoff, on_off. replace (lines []) with (@nil ascii) by reflexivity. cbn [app].
    destruct (mg_raw m), (mg_hex m), (mg_tuning m), (mg_autosync m); rewrite !title_text, !lines_cons, <- !app_assoc; reflexivity.
Qed.

Lemma spells_upper : forall a w, Forall (fun u => exists i, i < 26 /\ u = ascii_of_nat (65 + i)) w -> (spells a w <-> map to_upper a = w).
Proof.
  assert (forall c, (exists i, i < 26 /\ c = ascii_of_nat (97 + i) /\ to_upper c = ascii_of_nat (65 + i)) \/ to_upper c = c /\ forall i, i < 26 -> c <> ascii_of_nat (97 + i)) as U.
  { intros c. unfold to_upper. destruct ((97 <=? bval c) && (bval c <=? 122))%Z eqn:E.
    - left. apply andb_true_iff in E as [E1 E2]. apply Z.leb_le in E1, E2. exists (Z.to_nat (bval c - 97)). split; [lia|]. split.
      + replace (97 + Z.to_nat (bval c - 97)) with (nat_of_ascii c); [symmetry; apply ascii_nat_embedding|]. unfold bval, nat_of_ascii in *. lia.
      + unfold byte_of, ascii_of_nat. f_equal. rewrite Z.mod_small by lia. lia.
    - right. split; auto. intros i Hi ->. apply andb_false_iff in E. assert (bval (ascii_of_nat (97 + i)) = Z.of_nat (97 + i)) as B by (unfold bval; rewrite <- (nat_ascii_embedding (97 + i)) at 2 by lia; unfold nat_of_ascii; lia). rewrite B in E. destruct E as [E|E]; apply Z.leb_gt in E; lia. }
  intros a w H. split.
  - intros K. revert H. induction K as [|c u a w E K IH]; intros H; [reflexivity|]. inversion H as [|? ? [i [Hi Hu]] H']; subst. cbn [map]. f_equal; auto. destruct E as [->|[j [Hj [-> E]]]].
    + destruct (U (ascii_of_nat (65 + i))) as [[j [Hj [E _]]]|[E _]]; auto. apply (f_equal nat_of_ascii) in E. rewrite !nat_ascii_embedding in E by lia. lia.
    + destruct (U (ascii_of_nat (97 + j))) as [[k [Hk [E1 ->]]]|[_ N]]; [|destruct (N j); auto]. apply (f_equal nat_of_ascii) in E1. rewrite !nat_ascii_embedding in E1 by lia. rewrite E. f_equal. lia.
  - intros <-. clear H. unfold spells. induction a as [|c a IH]; cbn [map]; constructor; auto. destruct (U c) as [[i [Hi [E1 E2]]]|[E _]]; [right; exists i; auto|left; auto].
Qed.

Lemma criterion_shown_text : forall k, criterion_shown k (described true true k).
Proof.
  intros k. exists (lines [[]; cr_name k ++ lit ":"; repeat "="%char (S (List.length (cr_name k))); lit "Possible states (" ++ lit (if cty_incl (cr_type k) then "Inclusive" else "Exclusive") ++ lit "): " ++ cty_list (cr_type k)]), (cty_list (cr_type k)).
  split; [eexists; split; [apply separated_join|reflexivity]|]. split; [apply lines_text|].
  unfold described, state_shown. rewrite !lines_cons, title_text, !lines_cons. replace (lines []) with (@nil ascii) by reflexivity.
  replace (List.length (cr_name k ++ lit ":")) with (S (List.length (cr_name k))) by (rewrite app_length; cbn [List.length lit list_ascii_of_string]; lia).
  destruct (cty_incl (cr_type k)); repeat first [rewrite <- app_assoc | progress cbn [app]]; reflexivity.
Qed.

Lemma criterion_csv_text : forall k, criterion_csv k (described true false k).
Proof.
  intros k. exists (cty_list (cr_type k)). split; [eexists; split; [apply separated_join|reflexivity]|]. unfold described, state_shown.
  destruct (cty_incl (cr_type k)); repeat first [rewrite <- app_assoc | progress cbn [app]]; reflexivity.
Qed.

Lemma list_criteria_human : forall os y ev m, exists t ls, answers y (reporting os y ev) m "listCriteria" [] t /\ separated [newline] ls t /\ Forall2 criterion_shown (mg_crits m) ls.
Proof.
  intros os y ev m. exists (criteria_text true true (mg_crits m)), (map (described true true) (mg_crits m)). split; [|split; [apply separated_join|apply Forall2_map_r; intros; apply criterion_shown_text]].
  unfold answers. known. cbn [execute ask]. apply answered_by. rewrite (reporting_text os y ev (lit "listCriteria") [] m (Some (criteria_text true true (mg_crits m)))); reflexivity.
Qed.

Lemma capital : forall n, 65 <= n < 91 -> exists i, i < 26 /\ ascii_of_nat n = ascii_of_nat (65 + i).
Proof. intros n H. exists (n - 65). split; [lia|]. f_equal. lia. Qed.

Lemma csv_capital : Forall (fun u => exists i, i < 26 /\ u = ascii_of_nat (65 + i)) (lit "CSV").
Proof. repeat constructor; [exact (capital 67 ltac:(lia))|exact (capital 83 ltac:(lia))|exact (capital 86 ltac:(lia))]. Qed.
Lemma xml_capital : Forall (fun u => exists i, i < 26 /\ u = ascii_of_nat (65 + i)) (lit "XML").
Proof. repeat constructor; [exact (capital 88 ltac:(lia))|exact (capital 77 ltac:(lia))|exact (capital 76 ltac:(lia))]. Qed.

Lemma plan_one : forall need a, plan_list_criteria need [a]
  = Ok (if str_eqb (map to_upper a) (lit "XML") || str_eqb (map to_upper a) (lit "CSV") then AQuery (QOther (lit "listCriteria") [map to_upper a]) else AUsage).
Proof. intros need a. unfold plan_list_criteria. cbn [List.length Nat.ltb Nat.leb Nat.eqb arg nth_error obind]. destruct (_ || _); reflexivity. Qed.

Lemma criteria_entry : nth_error table 12 = Some (Entry (lit "listCriteria") 0 (lit "[CSV|XML]") plan_list_criteria).
Proof. reflexivity. Qed.

Lemma list_criteria_csv : forall os y ev m a, spells a (lit "CSV") ->
  exists t ls, answers y (reporting os y ev) m "listCriteria" [a] t /\ separated [newline] ls t /\ Forall2 criterion_csv (mg_crits m) ls.
Proof.
  intros os y ev m a H. apply (spells_upper a _ csv_capital) in H. exists (criteria_text true false (mg_crits m)), (map (described true false) (mg_crits m)).
  split; [|split; [apply separated_join|apply Forall2_map_r; intros; apply criterion_csv_text]].
  unfold answers. rewrite (process_known y (reporting os y ev) m (lit "listCriteria") [a] 12 _ (AQuery (QOther (lit "listCriteria") [lit "CSV"])) criteria_entry eq_refl eq_refl);
    [|cbn [en_min List.length]; lia|cbn [en_plan]; rewrite plan_one, H; reflexivity].
  cbn [execute ask]. apply answered_by. rewrite (reporting_text os y ev (lit "listCriteria") [lit "CSV"] m (Some (criteria_text true false (mg_crits m)))); reflexivity.
Qed.

Lemma list_criteria_refused : forall y ev m args, args <> [] -> (forall a, args = [a] -> ~ spells a (lit "CSV") /\ ~ spells a (lit "XML")) -> refuses y ev m "listCriteria" args.
Proof.
  intros y ev m args N H. unfold refuses. eexists. rewrite (process_known y ev m (lit "listCriteria") args 12 _ AUsage criteria_entry eq_refl eq_refl).
  - cbn [execute obind fst snd]. reflexivity.
  - cbn [en_min]. lia.
  - cbn [en_plan]. destruct args as [|a [|b r]]; [congruence| |reflexivity]. rewrite plan_one. destruct (H a eq_refl) as [H1 H2].
    destruct (str_eqb (map to_upper a) (lit "XML")) eqn:E1; [apply str_eqb_eq in E1; destruct H2; apply (spells_upper a _ xml_capital); auto|].
    destruct (str_eqb (map to_upper a) (lit "CSV")) eqn:E2; [apply str_eqb_eq in E2; destruct H1; apply (spells_upper a _ csv_capital); auto|]. reflexivity.
Qed.

(** ** Pending configurations *)

Lemma shown_unique : forall y m d a b, system_ok y -> reachable y m -> In d (ds_list (mg_doms m)) -> last_shown d a -> last_shown d b -> a = b.
Proof.
  intros y m d a b Sy R Hd [[c [Hc [Ec ->]]]|[E ->]] [[c' [Hc' [Ec' ->]]]|[E' ->]]; try congruence.
  destruct (C26_last_applied_exists y m d Sy R Hd) as [N|[k [_ [Ek [_ U]]]]]; [congruence|]. rewrite (U c Hc), (U c' Hc') by congruence. reflexivity.
Qed.

(** ** Dumps *)

Lemma leaf_get_ok : forall k f off bb, is_param k = true -> kind_wf k -> kind_printable f k -> off + size_of_kind k <= List.length bb ->
  (forall max, k = KdString max -> terminated max off bb) -> exists s, leaf_get k f [] off 0 bb = Ok s.
Proof.
  intros k f off bb I W Pr L T. unfold leaf_get. destruct k; try discriminate; rewrite ?Nat.sub_0_r.
  - unfold bitparam_get_str. rewrite bb_read_int_fits by (simpl in L; lia). cbn [obind]. eauto.
  - apply param_get_quiet; auto.
  - unfold array_access_get. simpl in L. unfold array_footprint in L. unfold array_index. cbn [obind]. unfold array_get_text. destruct (array_get_quiet t f len (off - 0) bb Pr) as [l ->]; [nia|]. eexists. reflexivity.
  - destruct (string_get_terminated max off bb (T max eq_refl)) as [s [E _]]. rewrite E. eauto.
Qed.

Lemma indent_spaces : forall d, List.concat (repeat (lit "    ") d) = repeat " "%char (4 * d).
Proof. induction d as [|d IH]; [reflexivity|]. cbn [repeat List.concat]. rewrite IH. replace (4 * S d) with (4 + 4 * d) by lia. reflexivity. Qed.

Lemma dump_first : forall d k n v cs, dump_content d (DNode k n v cs) = dump_line d k n v ++ nl ++ List.concat (map (dump_content (S d)) cs).
Proof.
  intros d k n v cs. cbn [dump_content]. rewrite indent_spaces, flat_map_concat_map. unfold dump_line, after. rewrite <- !app_assoc. destruct n, v; rewrite <- ?app_assoc; reflexivity.
Qed.

Lemma element_node_eq : forall root f bb n k cs p, element_node root f bb (Elem n k cs) p =
  do v <- log_value root f bb k p; do l <- (fix go (cs : list elem) (i : nat) : outcome (list dnode) :=
    match cs with [] => Ok [] | c :: r => do x <- element_node root f bb c (p ++ [i]); do l <- go r (S i); Ok (x :: l) end) cs 0; Ok (DNode (kind_text k) n v l).
Proof. reflexivity. Qed.

Lemma dump_nodes : forall y m p0 e p, elem_at (sy_root y) p = Some e -> List.length p0 <= List.length p ->
  (forall q c, elem_at (sy_root y) q = Some c -> is_param (e_kind c) = true -> exists v, leaf_get (e_kind c) (mg_fmt m) [] (offset (sy_root y) q) 0 (mg_main m) = Ok v /\ get_parameter y (path_in (sy_root y) q) m = Ok v) ->
  exists n ls, element_node (sy_root y) (mg_fmt m) (mg_main m) e p = Ok n /\ text_lines ls (dump_content (List.length p - List.length p0) n)
    /\ Forall2 (element_dumped y m p0) (map fst (below e p)) ls.
Proof.
  intros y m p0 e p E Le H. revert p E Le. induction e as [n k cs IH] using elem_ind_nested. intros p E Le. rewrite element_node_eq.
  assert (exists v, log_value (sy_root y) (mg_fmt m) (mg_main m) k p = Ok v /\ (if is_param k then get_parameter y (path_in (sy_root y) p) m = Ok v else v = [])) as [v [-> Hv]].
  { unfold log_value. destruct (is_param k) eqn:I; [|eauto]. apply (H p _ E I). }
  cbn [obind].
  assert (forall l i, (forall j c, nth_error l j = Some c -> nth_error cs (i + j) = Some c) ->
    Forall (fun e => forall p, elem_at (sy_root y) p = Some e -> List.length p0 <= List.length p -> exists n ls, element_node (sy_root y) (mg_fmt m) (mg_main m) e p = Ok n
      /\ text_lines ls (dump_content (List.length p - List.length p0) n) /\ Forall2 (element_dumped y m p0) (map fst (below e p)) ls) l ->
    exists ns ls, (fix go (cs : list elem) (i : nat) : outcome (list dnode) :=
      match cs with [] => Ok [] | c :: r => do x <- element_node (sy_root y) (mg_fmt m) (mg_main m) c (p ++ [i]); do l <- go r (S i); Ok (x :: l) end) l i = Ok ns
      /\ text_lines ls (List.concat (map (dump_content (S (List.length p - List.length p0))) ns)) /\ Forall2 (element_dumped y m p0) (map fst (belows l p i)) ls) as G.
  { induction l as [|c l IHl]; intros i Sub F.
    - exists [], []. split; [reflexivity|]. split; constructor.
    - inversion F as [|? ? F1 F2]; subst. destruct (F1 (p ++ [i])) as [x [ls1 [X1 [X2 X3]]]].
      + rewrite elem_at_app, E. cbn [elem_at e_children]. pose proof (Sub 0 c eq_refl) as N. rewrite Nat.add_0_r in N. rewrite N. reflexivity.
      + rewrite app_length. lia.
      + destruct (IHl (S i)) as [ns [ls2 [Y1 [Y2 Y3]]]]; auto.
        * intros j c' Hj. replace (S i + j) with (i + S j) by lia. apply Sub. auto.
        * exists (x :: ns), (ls1 ++ ls2). rewrite X1. cbn [obind]. rewrite Y1. split; [reflexivity|]. split.
          -- cbn [map List.concat]. apply text_app; auto. rewrite app_length in X2. cbn [List.length] in X2. replace (List.length p + 1 - List.length p0) with (S (List.length p - List.length p0)) in X2 by lia. auto.
          -- cbn [belows]. rewrite map_app. apply Forall2_app; auto. }
  destruct (G cs 0 ltac:(auto) IH) as [ns [ls [G1 [G2 G3]]]]. rewrite G1. cbn [obind]. exists (DNode (kind_text k) n v ns), (dump_line (List.length p - List.length p0) (kind_text k) n v :: ls).
  split; auto. split.
  - rewrite dump_first. apply (tl_line _ _ _ G2).
  - rewrite below_eq. cbn [map fst e_children]. constructor; auto. exists (Elem n k cs), v. auto.
Qed.

Lemma dump_element_answer : forall os y ev m a args p, system_ok y -> names_ok (sy_root y) -> reachable_typed y m -> all_printable y (mg_fmt m) -> locate (sy_root y) a = Some p ->
  exists t ps ls, answers y (reporting os y ev) m "dumpElement" (a :: args) t /\ text_lines ls t /\ StronglySorted before ps
    /\ (forall q, In q ps <-> above p q /\ elem_at (sy_root y) q <> None)
    /\ Forall2 (element_dumped y m p) ps ls.
Proof.
  intros os y ev m a args p Sy Nm R Pr L. pose proof (proj1 (proj1 Sy)) as W. pose proof (reachable_ok y m Sy (typed_reachable y m R)) as [[K [V Lm]] _].
  assert (exists e, elem_at (sy_root y) p = Some e) as [e E] by (destruct (locate_sound _ _ _ L) as [X _]; destruct (elem_at (sy_root y) p); [eauto|congruence]).
  destruct (dump_nodes y m p e p E ltac:(lia)) as [n [ls [N1 [N2 N3]]]].
  - intros q c Eq Ip. assert (param_at (sy_root y) q c) as Pa by (split; auto). destruct (leaf_get_ok (e_kind c) (mg_fmt m) (offset (sy_root y) q) (mg_main m)) as [v Hv]; auto.
    + apply (param_kind_wf _ _ _ W Pa).
    + apply (Pr q). auto.
    + rewrite Lm. apply (param_storage_fits _ _ _ W Pa).
    + intros max Km. pose proof (typed_valued y m q c max Sy R Pa Km) as [Vm _]. rewrite Km in Vm. exact Vm.
    + exists v. split; auto. unfold get_parameter, access_get. assert (elem_at (sy_root y) q <> None) as Nn by congruence. destruct (locate_param _ _ _ W (locate_path _ _ Nm Nn)) as [c' [Ec Hp]].
      rewrite Hp. assert (c' = c) as -> by congruence. rewrite Ip, Eq. auto.
  - rewrite Nat.sub_diag in N2. exists (dump_content 0 n), (map fst (below e p)), ls. split; [|split; [exact N2|split; [apply below_sorted|split; [|exact N3]]]].
    + apply reported1; [cbn [listing In]; tauto|]. change (report os y (lit "dumpElement") [a] m) with (at_path y (locate (sy_root y) a) (fun e p => do n <- element_node (sy_root y) (mg_fmt m) (mg_main m) e p; tell (dump_content 0 n))).
      rewrite L. cbn [at_path]. rewrite E. rewrite N1. reflexivity.
    + intros q. rewrite in_map_iff. split.
      * intros [[q' c] [<- Hq]]. apply below_In in Hq as [r [Er Hr]]. cbn [fst]. subst q'. split; [exists r; auto|]. rewrite elem_at_app, E. congruence.
      * intros [[r ->] Nn]. rewrite elem_at_app, E in Nn. destruct (elem_at e r) as [c|] eqn:Ec; [|congruence]. exists (p ++ r, c). split; auto. apply below_In. exists r. auto.
Qed.

Lemma rule_node_dumped : forall cs r d, in_scope cs r -> exists ls, rule_dumped cs d r ls /\ text_lines ls (dump_content d (rule_node cs r)).
Proof.
  intros cs r. induction r as [c w v|all l IH] using rule_ind2; intros d Sc; inversion Sc as [? ? ? Hc|? ? Hl]; subst.
  - destruct (nth_error cs c) as [k|] eqn:E; [|apply nth_error_None in E; lia]. eexists. split; [apply (rd_crit cs d c w v k E)|]. cbn [rule_node]. rewrite dump_first. unfold crit_dump. rewrite E. cbn [map List.concat].
    apply (tl_line _ [] []). constructor.
  - assert (exists ls, Forall2 (rule_dumped cs (S d)) l ls /\ Forall2 text_lines ls (map (dump_content (S d)) (map (rule_node cs) l))) as [ls [A B]].
    { clear Sc. induction l as [|x l IHl]; [exists []; split; constructor|]. destruct (IH x ltac:(cbn; auto) (S d) (Hl x ltac:(cbn; auto))) as [l1 [X1 X2]].
      destruct IHl as [ls [A B]]; [intros r Hr; apply IH; cbn; auto|intros r Hr; apply Hl; cbn; auto|]. exists (l1 :: ls). split; cbn [map]; constructor; auto. }
    eexists. split; [apply (rd_comp cs d all l ls A)|]. cbn [rule_node]. rewrite dump_first. replace (comp_text all) with (lit (if all then "All" else "Any")) by (destruct all; reflexivity).
    apply tl_line, text_concat. auto.
Qed.

Lemma dump_each : forall (A : Type) (P : A -> list str -> Prop) (f : A -> dnode) d l, (forall x, In x l -> exists ls, P x ls /\ text_lines ls (dump_content d (f x))) ->
  exists ls, Forall2 P l ls /\ text_lines (List.concat ls) (List.concat (map (dump_content d) (map f l))).
Proof.
  intros A P f d l. induction l as [|x l IH]; intros H; [exists []; split; constructor|]. destruct (H x ltac:(cbn; auto)) as [l1 [X1 X2]]. destruct IH as [ls [A1 A2]]; [intros z Hz; apply H; cbn; auto|].
  exists (l1 :: ls). split; [constructor; auto|]. cbn [map List.concat]. apply text_app; auto.
Qed.

Lemma dump_domains_answer : forall os y ev m args, system_ok y -> reachable y m ->
  exists t ls, answers y (reporting os y ev) m "dumpDomains" args t /\ text_lines (dump_line 0 (lit "ConfigurableDomains") [] [] :: List.concat ls) t
    /\ Forall2 (domain_dumped (mg_crits m)) (ds_list (mg_doms m)) ls.
Proof.
  intros os y ev m args Sy R. destruct (reachable_ok y m Sy R) as [_ [Ru _]].
  destruct (dump_each _ (domain_dumped (mg_crits m)) (domain_node (mg_crits m)) 1 (ds_list (mg_doms m))) as [ls [A B]].
  - intros d Hd. destruct (dump_each _ (config_dumped (mg_crits m)) (config_node (mg_crits m)) 2 (dm_configs d)) as [rs [C D]].
    + intros c Hc. destruct (cf_rule c) as [r|] eqn:Er.
      * destruct (rule_node_dumped (mg_crits m) r 3 (Ru d c r Hd Hc Er)) as [l [X Y]]. exists (dump_line 2 (lit "Configuration") (cf_name c) [] :: l). split; [exists l; rewrite Er; auto|].
        unfold config_node. rewrite dump_first, Er. apply tl_line. cbn [map List.concat]. rewrite app_nil_r. auto.
      * exists [dump_line 2 (lit "Configuration") (cf_name c) []]. split; [exists []; rewrite Er; auto|]. unfold config_node. rewrite dump_first, Er. apply (tl_line _ [] []). constructor.
    + eexists. split; [exists (last_name d), rs; split; [apply (last_shown_name y m); auto|split; [reflexivity|exact C]]|].
      unfold domain_node. rewrite dump_first. replace (if dm_aware d then lit "yes" else lit "no") with (lit (if dm_aware d then "yes" else "no")) by (destruct (dm_aware d); reflexivity). apply tl_line. exact D.
  - exists (dump_content 0 (domains_node (mg_crits m) (mg_doms m))), ls. split; [apply reported0; [cbn [listing In]; tauto|reflexivity]|]. split; auto. unfold domains_node. rewrite dump_first. apply tl_line. exact B.
Qed.
