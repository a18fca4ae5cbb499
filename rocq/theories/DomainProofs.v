(** Proofs about configurations and domains: what each command does to a consistent domain. *)
From Coq Require Import List Arith ZArith Bool Ascii Lia Permutation Sorted.
From Verif Require Import Base BaseProofs RuleModel BlackboardModel BlackboardProofs TreeModel TreeSpec
  TreeProofs MemSpec MemProofs SyncModel DomainModel DomainSpec AreaProofs SyncProofs.
Import ListNotations.
Local Open Scope nat_scope.

(** ** Positions *)

Lemma pos_eqb_eq : forall p q, pos_eqb p q = true <-> p = q.
Proof.
  induction p as [|i p IH]; destruct q as [|j q]; simpl; try (split; congruence).
  rewrite andb_true_iff, Nat.eqb_eq, IH. split; [intros [-> ->]; auto|intros H; inversion H; auto].
Qed.

Lemma pos_eqb_refl : forall p, pos_eqb p p = true.
Proof. intros. apply pos_eqb_eq. auto. Qed.

Lemma pos_eqb_neq : forall p q, pos_eqb p q = false <-> p <> q.
Proof. intros. rewrite <- not_true_iff_false, pos_eqb_eq. tauto. Qed.

Lemma pos_eq_dec : forall p q : pos, {p = q} + {p <> q}.
Proof. apply list_eq_dec. apply Nat.eq_dec. Qed.

Lemma descendant_spec : forall p q, descendant_of q p = true <-> above p q /\ p <> q.
Proof.
  induction p as [|i p IH]; intros q.
  - destruct q as [|j q]; simpl.
    + split; [discriminate|]. intros [_ H]. congruence.
    + split; [|auto]. intros _. split; [exists (j :: q); auto|discriminate].
  - destruct q as [|j q]; simpl.
    + split; [discriminate|]. intros [[r H] _]. discriminate.
    + rewrite andb_true_iff, Nat.eqb_eq, IH. split.
      * intros [-> [[r ->] H]]. split; [exists r; auto|congruence].
      * intros [[r H] N]. simpl in H. inversion H; subst. split; auto. split; [exists r; auto|congruence].
Qed.

(** ** Lists *)

Lemma omap_list_ok : forall A B (f : A -> outcome B) (R : A -> B -> Prop) l,
  (forall a, In a l -> exists b, f a = Ok b /\ R a b) -> exists l', omap_list f l = Ok l' /\ Forall2 R l l'.
Proof.
  intros A B f R l. induction l as [|a l IH]; intros H; simpl; [eauto|].
  destruct (H a) as [b [E Hb]]; [simpl; auto|]. rewrite E. cbn [obind].
  destruct IH as [l' [El Hl]]; [intros; apply H; simpl; auto|]. rewrite El. cbn [obind]. eauto.
Qed.

Lemma omap_list_inv : forall A B (f : A -> outcome B) l l', omap_list f l = Ok l' <-> Forall2 (fun a b => f a = Ok b) l l'.
Proof.
  intros A B f. induction l as [|a l IH]; intros l'; simpl.
  - split; intros H; [inversion H; auto|inversion H; auto].
  - destruct (f a) as [b| | |] eqn:E; cbn [obind]; try (split; [discriminate|intros H; inversion H; congruence]).
    destruct (omap_list f l) as [r| | |] eqn:El; cbn [obind].
    + split.
      * intros H. inversion H; subst. constructor; auto. apply IH. auto.
      * intros H. inversion H; subst. assert (Ok r = Ok l'0) by (apply IH; auto). congruence.
    + split; [discriminate|]. intros H. inversion H; subst. assert (Err = Ok l'0) by (apply IH; auto). discriminate.
    + split; [discriminate|]. intros H. inversion H; subst. assert (Abort = Ok l'0) by (apply IH; auto). discriminate.
    + split; [discriminate|]. intros H. inversion H; subst. assert (UB = Ok l'0) by (apply IH; auto). discriminate.
Qed.

Lemma Forall2_in_l : forall A B (R : A -> B -> Prop) l1 l2 a, Forall2 R l1 l2 -> In a l1 -> exists b, In b l2 /\ R a b.
Proof.
  intros A B R l1 l2 a H. induction H; intros []; subst; [exists y; simpl; auto|].
  destruct (IHForall2 H1) as [b [Hb Rb]]. exists b. simpl. auto.
Qed.

Lemma Forall2_in_r : forall A B (R : A -> B -> Prop) l1 l2 b, Forall2 R l1 l2 -> In b l2 -> exists a, In a l1 /\ R a b.
Proof.
  intros A B R l1 l2 b H. induction H; intros []; subst; [exists x; simpl; auto|].
  destruct (IHForall2 H1) as [a [Ha Ra]]. exists a. simpl. auto.
Qed.

Lemma Forall2_map_eq : forall A B C (f : A -> C) (g : B -> C) l1 l2, Forall2 (fun a b => g b = f a) l1 l2 -> map g l2 = map f l1.
Proof. intros A B C f g l1 l2 H. induction H; simpl; congruence. Qed.

Lemma Forall2_impl2 : forall A B (R S : A -> B -> Prop) l1 l2, (forall a b, In a l1 -> R a b -> S a b) ->
  Forall2 R l1 l2 -> Forall2 S l1 l2.
Proof.
  intros A B R S l1 l2 H F. induction F; constructor.
  - apply H; simpl; auto.
  - apply IHF. intros; apply H; simpl; auto.
Qed.

Lemma Forall2_comp : forall A B C (R : A -> B -> Prop) (S : B -> C -> Prop) l1 l2 l3,
  Forall2 R l1 l2 -> Forall2 S l2 l3 -> Forall2 (fun a c => exists b, R a b /\ S b c) l1 l3.
Proof.
  intros A B C R S l1 l2 l3 H. revert l3. induction H; intros l3 H2; inversion H2; subst; constructor; eauto.
Qed.

Lemma Forall2_refl_eq : forall A (l : list A), Forall2 eq l l.
Proof. induction l; constructor; auto. Qed.

Lemma filter_ext_in2 : forall A (f g : A -> bool) l, (forall a, In a l -> f a = g a) -> filter f l = filter g l.
Proof.
  intros A f g l. induction l as [|x l IH]; intros H; simpl; auto. rewrite (H x) by (simpl; auto).
  rewrite IH by (intros; apply H; simpl; auto). auto.
Qed.

Lemma filter_filter : forall A (f g : A -> bool) l, filter f (filter g l) = filter (fun x => g x && f x) l.
Proof.
  intros A f g l. induction l as [|x l IH]; simpl; auto. destruct (g x); simpl; auto. destruct (f x); rewrite IH; auto.
Qed.

Lemma filter_all : forall A (f : A -> bool) l, (forall a, In a l -> f a = true) -> filter f l = l.
Proof.
  intros A f l. induction l as [|x l IH]; intros H; simpl; auto. rewrite (H x) by (simpl; auto). f_equal. apply IH.
  intros; apply H; simpl; auto.
Qed.

Lemma filter_none : forall A (f : A -> bool) l, (forall a, In a l -> f a = false) -> filter f l = [].
Proof.
  intros A f l. induction l as [|x l IH]; intros H; simpl; auto. rewrite (H x) by (simpl; auto). apply IH.
  intros; apply H; simpl; auto.
Qed.

Lemma map_filter : forall A B (g : A -> B) (f : B -> bool) l, map g (filter (fun a => f (g a)) l) = filter f (map g l).
Proof. intros A B g f l. induction l as [|x l IH]; simpl; auto. destruct (f (g x)); simpl; congruence. Qed.

Lemma NoDup_app : forall A (l1 l2 : list A), NoDup l1 -> NoDup l2 -> (forall x, In x l1 -> In x l2 -> False) -> NoDup (l1 ++ l2).
Proof.
  intros A l1 l2 H1 H2 H. induction H1; simpl; auto. constructor.
  - rewrite in_app_iff. intros [C|C]; [auto|apply (H x); simpl; auto].
  - apply IHNoDup. intros y Hy. apply H. simpl. auto.
Qed.

Lemma NoDup_app_inv : forall A (l1 l2 : list A), NoDup (l1 ++ l2) -> NoDup l1 /\ NoDup l2 /\ forall x, In x l1 -> In x l2 -> False.
Proof.
  intros A l1 l2. induction l1 as [|x l1 IH]; simpl; intros H.
  - split; [constructor|]. split; auto.
  - inversion H; subst. destruct (IH H3) as [N1 [N2 N3]]. rewrite in_app_iff in H2. split; [constructor; tauto|]. split; auto.
    intros z [->|Hz] Hz2; [tauto|eauto].
Qed.

Lemma NoDup_map_in : forall A B (g : A -> B) l a b, NoDup (map g l) -> In a l -> In b l -> g a = g b -> a = b.
Proof.
  intros A B g l a b. induction l as [|x l IH]; simpl; intros N Ha Hb E; [tauto|]. inversion N; subst.
  destruct Ha as [->|Ha], Hb as [->|Hb]; auto.
  - exfalso. apply H1. rewrite E. apply in_map. auto.
  - exfalso. apply H1. rewrite <- E. apply in_map. auto.
Qed.

Lemma Permutation_filter : forall A (f : A -> bool) l1 l2, Permutation l1 l2 -> Permutation (filter f l1) (filter f l2).
Proof.
  intros A f l1 l2 H. induction H; simpl; auto.
  - destruct (f x); auto.
  - destruct (f x), (f y); auto. apply perm_swap.
  - eapply perm_trans; eauto.
Qed.

(** ** The areas of a configuration as a map from positions *)

Lemma get_area_In : forall p l a, NoDup (map ar_pos l) -> In a l -> ar_pos a = p -> get_area p l = Ok a.
Proof.
  intros p l a. induction l as [|x l IH]; intros N H E; [destruct H|]. simpl in N. inversion N; subst. simpl.
  destruct H as [->|H].
  - rewrite pos_eqb_refl. auto.
  - destruct (pos_eqb (ar_pos x) (ar_pos a)) eqn:Q; [|auto]. apply pos_eqb_eq in Q. exfalso. apply H2. rewrite Q. apply in_map. auto.
Qed.

Lemma get_area_Ok : forall p l a, get_area p l = Ok a -> In a l /\ ar_pos a = p.
Proof.
  intros p l a. induction l as [|x l IH]; simpl; intros H; [discriminate|].
  destruct (pos_eqb (ar_pos x) p) eqn:Q.
  - inversion H; subst. apply pos_eqb_eq in Q. auto.
  - destruct (IH H). auto.
Qed.

Definition replace_area (p : pos) (a' : area) (b : area) : area := if pos_eqb (ar_pos b) p then a' else b.

Lemma upd_area_map : forall p f l a a', NoDup (map ar_pos l) -> In a l -> ar_pos a = p -> f a = Ok a' ->
  upd_area p f l = Ok (map (replace_area p a') l).
Proof.
  intros p f l a a'. induction l as [|x l IH]; intros N H E F; [destruct H|]. simpl in N. inversion N; subst. simpl.
  unfold replace_area at 1. destruct H as [->|H].
  - rewrite pos_eqb_refl, F. cbn [obind]. do 2 f_equal. rewrite <- (map_id l) at 1. apply map_ext_in. intros b Hb.
    unfold replace_area. destruct (pos_eqb (ar_pos b) (ar_pos a)) eqn:Q; auto. apply pos_eqb_eq in Q.
    exfalso. apply H2. rewrite <- Q. apply in_map. auto.
  - destruct (pos_eqb (ar_pos x) (ar_pos a)) eqn:Q.
    + apply pos_eqb_eq in Q. exfalso. apply H2. rewrite Q. apply in_map. auto.
    + rewrite IH; auto.
Qed.

Lemma replace_area_other : forall p a' l, ~ In p (map ar_pos l) -> map (replace_area p a') l = l.
Proof.
  intros p a' l H. rewrite <- (map_id l) at 2. apply map_ext_in. intros b Hb. unfold replace_area.
  destruct (pos_eqb (ar_pos b) p) eqn:Q; auto. apply pos_eqb_eq in Q. exfalso. apply H. rewrite <- Q. apply in_map. auto.
Qed.

Lemma replace_area_pos : forall p a' l, ar_pos a' = p -> map ar_pos (map (replace_area p a') l) = map ar_pos l.
Proof.
  intros p a' l H. rewrite map_map. apply map_ext. intros b. unfold replace_area.
  destruct (pos_eqb (ar_pos b) p) eqn:Q; auto. apply pos_eqb_eq in Q. congruence.
Qed.

Lemma remove_area_filter : forall p l, NoDup (map ar_pos l) -> In p (map ar_pos l) ->
  remove_area p l = Ok (filter (fun b => negb (pos_eqb (ar_pos b) p)) l).
Proof.
  intros p l. induction l as [|x l IH]; intros N H; [destruct H|]. simpl in N. inversion N; subst. simpl.
  destruct (pos_eqb (ar_pos x) p) eqn:Q; cbn [negb].
  - apply pos_eqb_eq in Q. subst p. rewrite filter_all; auto. intros b Hb. apply negb_true_iff, pos_eqb_neq. intros E.
    apply H2. rewrite <- E. apply in_map. auto.
  - simpl in H. destruct H as [H|H]; [apply pos_eqb_neq in Q; congruence|]. rewrite IH; auto.
Qed.

(** ** Merging and removing several elements in one configuration *)

Fixpoint cf_merge_all (y : system) (to : pos) (ps : list pos) (c : config) : outcome config :=
  match ps with [] => Ok c | p :: r => do c' <- cf_merge y to p c; cf_merge_all y to r c' end.

Fixpoint cf_remove_all (ps : list pos) (c : config) : outcome config :=
  match ps with [] => Ok c | p :: r => do c' <- cf_remove p c; cf_remove_all r c' end.

Lemma merge_all_each : forall y to ps cfs cfs', Forall2 (fun c c' => cf_merge_all y to ps c = Ok c') cfs cfs' ->
  merge_all y to ps cfs = Ok cfs'.
Proof.
  intros y to. induction ps as [|p ps IH]; intros cfs cfs' H; cbn [merge_all].
  - f_equal. induction H; auto. cbn [cf_merge_all] in H. inversion H; subst. f_equal; auto.
  - cbn [cf_merge_all] in H.
    assert (exists mid, Forall2 (fun c m => cf_merge y to p c = Ok m) cfs mid /\ Forall2 (fun m c' => cf_merge_all y to ps m = Ok c') mid cfs') as [mid [M1 M2]].
    { induction H.
      - exists []. auto.
      - destruct IHForall2 as [mid [M1 M2]]. destruct (cf_merge y to p x) as [m| | |] eqn:E; try discriminate. cbn [obind] in H.
        exists (m :: mid). auto. }
    apply omap_list_inv in M1. rewrite M1. cbn [obind]. apply IH. auto.
Qed.

Lemma do_remove_all_each : forall y ps d at_ cfs', Forall2 (fun c c' => cf_remove_all ps c = Ok c') (dm_configs d) cfs' ->
  do_remove_all y ps d at_
  = Ok (with_configs (with_elems d (filter (fun q => negb (existsb (pos_eqb q) ps)) (dm_elems d))) cfs',
        filter (fun x => negb (existsb (pos_eqb (fst x)) ps && (snd x =? dm_id d))) at_).
Proof.
  intros y. induction ps as [|p ps IH]; intros d at_ cfs' H; cbn [do_remove_all].
  - assert (dm_configs d = cfs') as <-.
    { revert H. generalize (dm_configs d). intros l H. induction H; auto. cbn [cf_remove_all] in H. inversion H; subst. f_equal; auto. }
    simpl. rewrite !filter_all by auto. destruct d; auto.
  - cbn [cf_remove_all] in H.
    assert (exists mid, Forall2 (fun c m => cf_remove p c = Ok m) (dm_configs d) mid /\ Forall2 (fun m c' => cf_remove_all ps m = Ok c') mid cfs') as [mid [M1 M2]].
    { revert H. generalize (dm_configs d). intros l H. induction H.
      - exists []. auto.
      - destruct IHForall2 as [mid [M1 M2]]. destruct (cf_remove p x) as [m| | |] eqn:E; try discriminate. cbn [obind] in H.
        exists (m :: mid). auto. }
    apply omap_list_inv in M1. unfold dm_do_remove. cbn [dm_configs with_elems]. rewrite M1. cbn [obind fst snd].
    rewrite (IH _ _ cfs'); auto. cbn [dm_elems with_configs with_elems dm_id]. do 2 f_equal.
    + unfold with_configs, with_elems. simpl. f_equal. rewrite filter_filter. apply filter_ext. intros q. rewrite negb_orb. auto.
    + unfold detach. rewrite filter_filter. apply filter_ext. intros [q i]. cbn [fst snd existsb].
      destruct (pos_eqb q p), (existsb (pos_eqb q) ps), (i =? dm_id d); auto.
Qed.

Lemma with_areas_areas : forall c l, cf_areas (with_areas c l) = l.
Proof. auto. Qed.

Lemma cf_remove_all_spec : forall ps c, NoDup ps -> NoDup (map ar_pos (cf_areas c)) ->
  (forall p, In p ps -> In p (map ar_pos (cf_areas c))) ->
  cf_remove_all ps c = Ok (with_areas c (filter (fun a => negb (existsb (pos_eqb (ar_pos a)) ps)) (cf_areas c))).
Proof.
  induction ps as [|p ps IH]; intros c Np N H; cbn [cf_remove_all].
  - cbn [existsb negb]. rewrite filter_all by auto. destruct c; auto.
  - inversion Np; subst. unfold cf_remove. rewrite remove_area_filter by (auto; apply H; simpl; auto). unfold omap. cbn [obind].
    assert (map ar_pos (filter (fun b => negb (pos_eqb (ar_pos b) p)) (cf_areas c))
            = filter (fun q => negb (pos_eqb q p)) (map ar_pos (cf_areas c))) as M
      by (apply (map_filter _ _ ar_pos (fun q => negb (pos_eqb q p)))).
    rewrite IH; auto.
    + unfold with_areas. cbn [cf_id cf_name cf_rule cf_areas]. do 2 f_equal. rewrite filter_filter. apply filter_ext. intros a.
      cbn [existsb]. rewrite negb_orb. auto.
    + cbn [cf_areas with_areas]. rewrite M. apply NoDup_filter. auto.
    + intros q Hq. cbn [cf_areas with_areas]. rewrite M. apply filter_In. split; [apply H; simpl; auto|].
      apply negb_true_iff, pos_eqb_neq. intros ->. auto.
Qed.

(** Merging the elements [ps] of the areas [l] in the area [o] of an element above. *)
Lemma cf_merge_all_spec : forall y to ps c l o, structure_ok y -> cf_areas c = l ++ [o] -> ar_pos o = to ->
  NoDup (map ar_pos (l ++ [o])) -> Forall (area_ok (sy_root y)) (l ++ [o]) -> separate ps ->
  (forall p, In p ps -> In p (map ar_pos l) /\ above to p) ->
  exists o', cf_merge_all y to ps c = Ok (with_areas c (l ++ [o'])) /\ ar_pos o' = to /\ area_ok (sy_root y) o' /\ ar_valid o' = ar_valid o
    /\ (forall a i, In a l -> In (ar_pos a) ps -> owns (sy_root y) (ar_pos a) i -> abit (sy_root y) o' i = abit (sy_root y) a i)
    /\ (forall i, 8 * offset (sy_root y) to <= i -> (forall p, In p ps -> ~ owns (sy_root y) p i) -> abit (sy_root y) o' i = abit (sy_root y) o i).
Proof.
  intros y to ps. induction ps as [|p ps IH]; intros c l o Hs Hc Ho N Fa Sp Hp; cbn [cf_merge_all].
  - exists o. rewrite <- Hc. split; [destruct c; auto|]. split; auto. split; [rewrite Forall_forall in Fa; apply Fa; apply in_or_app; simpl; auto|].
    split; auto. split; [intros a i _ []|auto].
  - destruct (Hp p) as [H1 H2]; [simpl; auto|]. apply in_map_iff in H1. destruct H1 as [a [Ea Ia]].
    destruct (separate_cons _ _ Sp) as [Sp' Up].
    assert (area_ok (sy_root y) a) as Aa by (rewrite Forall_forall in Fa; apply Fa; apply in_or_app; auto).
    assert (area_ok (sy_root y) o) as Ao by (rewrite Forall_forall in Fa; apply Fa; apply in_or_app; simpl; auto).
    destruct (copy_to_above y a o (proj1 Hs) Aa Ao ltac:(rewrite Ho, Ea; auto)) as [o1 [C1 [C2 [C3 [C4 [C5 C6]]]]]].
    unfold cf_merge. rewrite Hc. rewrite (get_area_In p _ a N); auto; [|apply in_or_app; auto]. cbn [obind].
    rewrite (upd_area_map to _ _ o o1 N); auto; [|apply in_or_app; simpl; auto]. unfold omap. cbn [obind].
    assert (~ In to (map ar_pos l)) as Nt.
    { rewrite map_app in N. apply NoDup_app_inv in N. destruct N as [_ [_ N]]. intros C. apply (N to C). simpl. auto. }
    rewrite map_app, replace_area_other by auto. cbn [map]. unfold replace_area. rewrite Ho, pos_eqb_refl.
    destruct (IH (with_areas c (l ++ [o1])) l o1 Hs) as [o' [D1 [D2 [D3 [D4 [D5 D6]]]]]]; auto.
    + congruence.
    + rewrite map_app in *. cbn [map] in *. rewrite C3. auto.
    + apply Forall_app. apply Forall_app in Fa. split; [tauto|constructor; auto].
    + intros q Hq. apply Hp. simpl. auto.
    + exists o'. split; [rewrite D1; auto|]. split; auto. split; auto. split; [congruence|]. split.
      * intros b i Ib Pb Ob. destruct Pb as [Pb|Pb]; [|apply D5; auto].
        assert (b = a) as ->. { apply (NoDup_map_in _ _ ar_pos (l ++ [o])); auto; try (apply in_or_app; auto). congruence. }
        rewrite D6.
        -- apply C5. auto.
        -- destruct (owns_exists _ _ _ Ob) as [f Ef]. pose proof (owns_range _ _ f i (proj1 Hs) Ef Ob).
           destruct Ao as [e [Ee Le]]. rewrite Ho in Ee. rewrite <- Ea in H2.
           destruct (storage_above _ _ _ e f (proj1 Hs) H2 Ee Ef). lia.
        -- intros q Hq Oq. apply (owns_apart _ p q i (proj1 Hs) (proj2 Hs)); auto. congruence.
      * intros i Hi Hn. rewrite D6; auto; [|intros q Hq; apply Hn; simpl; auto].
        apply C6; [rewrite Ho; auto|]. rewrite Ea. apply Hn. simpl. auto.
Qed.

(** ** Associating an element *)

(** The settings of configuration [c'] after the element at [p] was associated: the areas of the elements below were merged in
    the one of [p]. *)
Definition added (y : system) (p : pos) (main : option blackboard) (c c' : config) : Prop :=
  cf_id c' = cf_id c /\ cf_name c' = cf_name c /\ cf_rule c' = cf_rule c
  /\ exists o, cf_areas c' = filter (fun a => negb (descendant_of (ar_pos a) p)) (cf_areas c) ++ [o]
     /\ ar_pos o = p /\ area_ok (sy_root y) o /\ ar_valid o = (match main with Some _ => true | None => false end)
     /\ (forall a i, In a (cf_areas c) -> descendant_of (ar_pos a) p = true -> owns (sy_root y) (ar_pos a) i ->
           abit (sy_root y) o i = abit (sy_root y) a i)
     /\ (forall m i, main = Some m -> owns (sy_root y) p i ->
           (forall a, In a (cf_areas c) -> descendant_of (ar_pos a) p = true -> ~ owns (sy_root y) (ar_pos a) i) ->
           abit (sy_root y) o i = mbit m i).

Definition not_below (p : pos) (q : pos) : bool := negb (descendant_of q p).

Lemma do_add_spec : forall y p main d at_, structure_ok y -> elem_at (sy_root y) p <> None ->
  (forall c, In c (dm_configs d) -> config_ok (sy_root y) (dm_elems d) c) ->
  separate (filter (fun q => descendant_of q p) (dm_elems d)) -> NoDup (dm_elems d) -> ~ In p (dm_elems d) ->
  (forall m, main = Some m -> List.length m = footprint (sy_root y)) ->
  exists cfs', dm_do_add y p main d at_
    = Ok (Domain (dm_id d) (dm_name d) (dm_aware d) (filter (not_below p) (dm_elems d) ++ [p]) cfs' (dm_last d)
            (set_union (dm_syncers d) (syncer_set y p)) (dm_fresh d),
          filter (fun x => negb (existsb (pos_eqb (fst x)) (filter (fun q => descendant_of q p) (dm_elems d)) && (snd x =? dm_id d)))
                 (at_ ++ [(p, dm_id d)]))
    /\ Forall2 (added y p main) (dm_configs d) cfs'.
Proof.
  intros y p main d at_ Hs He Hc Sp Nd Np Hm. unfold dm_do_add. cbn [dm_configs with_syncers].
  destruct (elem_at (sy_root y) p) as [e|] eqn:Ee; [|congruence].
  destruct (new_area_spec y p e Ee) as [n [N1 [N2 [N3 N4]]]].
  set (ps := filter (fun q => descendant_of q p) (dm_elems d)) in *.
  (* the areas added *)
  assert (omap_list (cf_add y p) (dm_configs d) = Ok (map (fun c => with_areas c (cf_areas c ++ [n])) (dm_configs d))) as E1.
  { apply omap_list_inv. clear - N1. induction (dm_configs d); simpl; constructor; auto. unfold cf_add. rewrite N1. auto. }
  rewrite E1. cbn [obind].
  (* validated against the main memory *)
  assert (exists n2, (match main with
      | Some m => omap_list (cf_validate_area y p m) (map (fun c => with_areas c (cf_areas c ++ [n])) (dm_configs d))
      | None => Ok (map (fun c => with_areas c (cf_areas c ++ [n])) (dm_configs d)) end)
      = Ok (map (fun c => with_areas c (cf_areas c ++ [n2])) (dm_configs d))
      /\ ar_pos n2 = p /\ area_ok (sy_root y) n2 /\ ar_valid n2 = (match main with Some _ => true | None => false end)
      /\ (forall m i, main = Some m -> owns (sy_root y) p i -> abit (sy_root y) n2 i = mbit m i)) as [n2 [E2 [P2 [A2 [V2 B2]]]]].
  { destruct main as [m|].
    - destruct (area_validate_spec y m n (proj1 Hs) N2 (Hm m eq_refl)) as [n2 [M1 [M2 [M3 [M4 [M5 M6]]]]]]. exists n2. split.
      + apply omap_list_inv. rewrite <- (map_id (dm_configs d)) at 1. 
        assert (forall l, (forall c, In c l -> config_ok (sy_root y) (dm_elems d) c) ->
          Forall2 (fun a b => cf_validate_area y p m a = Ok b) (map (fun c => with_areas c (cf_areas c ++ [n])) l)
            (map (fun c => with_areas c (cf_areas c ++ [n2])) l)) as G.
        { induction l as [|c l IHl]; intros Hl; simpl; constructor; [|apply IHl; intros; apply Hl; simpl; auto].
          assert (config_ok (sy_root y) (dm_elems d) c) as [Pc _] by (apply Hl; simpl; auto).
          assert (~ In p (map ar_pos (cf_areas c))) as Nc by (intros C; apply Np; apply (Permutation_in _ Pc); auto).
          assert (NoDup (map ar_pos (cf_areas c ++ [n]))) as N0.
          { rewrite map_app. apply NoDup_app; [apply (Permutation_NoDup (Permutation_sym Pc)); auto|repeat constructor; auto|].
            intros x Hx [<-|[]]. apply Nc. congruence. }
          unfold cf_validate_area. cbn [cf_areas with_areas]. rewrite (upd_area_map p _ _ n n2 N0); auto; [|apply in_or_app; simpl; auto].
          unfold omap. cbn [obind]. rewrite map_app, replace_area_other by auto. cbn [map]. unfold replace_area. rewrite N3, pos_eqb_refl. auto. }
        rewrite map_id. apply G. auto.
      + rewrite N3 in *. split; auto. split; auto. split; auto. intros m' i Em Oi. inversion Em; subst m'. apply M6; auto.
    - exists n. split; auto. split; auto. split; auto. split; auto. discriminate. }
  rewrite E2. cbn [obind]. unfold dm_merge. cbn [dm_elems with_configs with_syncers dm_configs]. fold ps.
  assert (forall q, In q ps -> In q (dm_elems d) /\ above p q /\ p <> q) as Hps.
  { intros q Hq. apply filter_In in Hq. destruct Hq as [Q1 Q2]. apply descendant_spec in Q2. tauto. }
  (* merge, and removal of the merged elements *)
  assert (forall l, (forall c, In c l -> config_ok (sy_root y) (dm_elems d) c) -> exists mid cfs',
    Forall2 (fun c c' => cf_merge_all y p ps c = Ok c') (map (fun c => with_areas c (cf_areas c ++ [n2])) l) mid
    /\ Forall2 (fun c c' => cf_remove_all ps c = Ok c') mid cfs' /\ Forall2 (added y p main) l cfs') as G.
  { induction l as [|c l IHl]; intros Hl; [exists [], []; simpl; auto|].
    destruct IHl as [mid [cfs' [F1 [F2 F3]]]]; [intros; apply Hl; simpl; auto|].
    assert (config_ok (sy_root y) (dm_elems d) c) as [Pc Ac] by (apply Hl; simpl; auto).
    assert (NoDup (map ar_pos (cf_areas c))) as Nc by (apply (Permutation_NoDup (Permutation_sym Pc)); auto).
    assert (~ In p (map ar_pos (cf_areas c))) as Nin by (intros C; apply Np; apply (Permutation_in _ Pc); auto).
    assert (forall z, ar_pos z = p -> NoDup (map ar_pos (cf_areas c ++ [z]))) as Nz.
    { intros z Hz. rewrite map_app. apply NoDup_app; auto; [repeat constructor; auto|]. intros x Hx [<-|[]]. apply Nin. congruence. }
    destruct (cf_merge_all_spec y p ps (with_areas c (cf_areas c ++ [n2])) (cf_areas c) n2 Hs) as [o [D1 [D2 [D3 [D4 [D5 D6]]]]]]; auto.
    { apply Forall_app. split; auto. }
    { intros q Hq. destruct (Hps q Hq) as [Q1 [Q2 _]]. split; auto. apply (Permutation_in _ (Permutation_sym Pc)). auto. }
    exists (with_areas c (cf_areas c ++ [o]) :: mid).
    exists (with_areas c (filter (fun a => negb (descendant_of (ar_pos a) p)) (cf_areas c) ++ [o]) :: cfs').
    split; [constructor; auto|]. split; constructor; auto.
    - rewrite cf_remove_all_spec.
      + unfold with_areas. cbn [cf_id cf_name cf_rule cf_areas]. do 2 f_equal. rewrite filter_app. f_equal.
        * apply filter_ext_in2. intros a Ia. f_equal. apply eq_iff_eq_true. rewrite existsb_exists. split.
          -- intros [q [Q1 Q2]]. apply pos_eqb_eq in Q2. rewrite Q2. apply filter_In in Q1. tauto.
          -- intros Da. exists (ar_pos a). split; [|apply pos_eqb_refl]. apply filter_In. split; auto.
             apply (Permutation_in _ Pc). apply in_map. auto.
        * simpl. replace (existsb (pos_eqb (ar_pos o)) ps) with false; auto. symmetry. apply not_true_iff_false. rewrite existsb_exists.
          intros [q [Q1 Q2]]. apply pos_eqb_eq in Q2. apply Hps in Q1. rewrite D2 in Q2. tauto.
      + apply Sp.
      + cbn [cf_areas with_areas]. apply Nz. auto.
      + intros q Hq. cbn [cf_areas with_areas]. rewrite map_app. apply in_or_app. left.
        apply (Permutation_in _ (Permutation_sym Pc)). apply Hps. auto.
    - unfold added. cbn [cf_id cf_name cf_rule cf_areas with_areas]. do 3 (split; auto). exists o. split; auto. split; auto. split; auto. split; [congruence|]. split.
      + intros a i Ia Da Oa. apply D5; auto. apply filter_In. split; auto. apply (Permutation_in _ Pc). apply in_map. auto.
      + intros m i Em Oi Hn. rewrite D6.
        * apply B2; auto.
        * destruct Oi as [e' [_ [Oi _]]]. auto.
        * intros q Hq Oq. destruct (Hps q Hq) as [Q1 [Q2 Q3]].
          apply (Permutation_in _ (Permutation_sym Pc)) in Q1. apply in_map_iff in Q1. destruct Q1 as [a [Q4 Q5]]. subst q.
          apply (Hn a Q5); auto. apply descendant_spec. auto. }
  destruct (G (dm_configs d) Hc) as [mid [cfs' [F1 [F2 F3]]]].
  rewrite (merge_all_each y p ps _ mid F1). cbn [obind].
  erewrite do_remove_all_each by (cbn [dm_configs with_configs]; exact F2). cbn [obind fst snd dm_elems with_configs with_elems with_syncers dm_id].
  exists cfs'. split; auto. unfold attach. do 2 f_equal. unfold with_elems, with_configs, with_syncers. simpl. f_equal. f_equal.
  apply filter_ext_in2. intros q Hq. unfold not_below. f_equal. apply eq_iff_eq_true. rewrite existsb_exists. split.
  - intros [q' [Q1 Q2]]. apply pos_eqb_eq in Q2. subst q'. apply filter_In in Q1. tauto.
  - intros Dq. exists q. split; [|apply pos_eqb_refl]. apply filter_In. auto.
Qed.

(** ** Splitting an element *)

Lemma separate_nil : separate [].
Proof. split; [constructor|]. intros p q []. Qed.

(** Areas appended to a configuration. *)
Definition extended (y : system) (ps : list pos) (c c' : config) : Prop :=
  cf_id c' = cf_id c /\ cf_name c' = cf_name c /\ cf_rule c' = cf_rule c
  /\ exists news, cf_areas c' = cf_areas c ++ news /\ map ar_pos news = ps /\ Forall (area_ok (sy_root y)) news.

Lemma extended_ok : forall y ps l c c', config_ok (sy_root y) l c -> extended y ps c c' -> config_ok (sy_root y) (l ++ ps) c'.
Proof.
  intros y ps l c c' [Pc Ac] [_ [_ [_ [news [E1 [E2 E3]]]]]]. split; rewrite E1.
  - rewrite map_app, E2. apply Permutation_app_tail. auto.
  - apply Forall_app. auto.
Qed.

Lemma do_add_all_spec : forall y ps d at_, structure_ok y ->
  (forall p, In p ps -> elem_at (sy_root y) p <> None) ->
  (forall c, In c (dm_configs d) -> config_ok (sy_root y) (dm_elems d) c) ->
  NoDup (dm_elems d ++ ps) ->
  (forall p q, In p ps -> In q (dm_elems d ++ ps) -> descendant_of q p = false) ->
  exists cfs', do_add_all y ps d at_
    = Ok (Domain (dm_id d) (dm_name d) (dm_aware d) (dm_elems d ++ ps) cfs' (dm_last d)
            (fold_left (fun acc p => set_union acc (syncer_set y p)) ps (dm_syncers d)) (dm_fresh d),
          at_ ++ map (fun p => (p, dm_id d)) ps)
    /\ Forall2 (extended y ps) (dm_configs d) cfs'.
Proof.
  intros y ps. induction ps as [|p ps IH]; intros d at_ Hs He Hc Nd Hd; cbn [do_add_all].
  - exists (dm_configs d). rewrite !app_nil_r. split; [destruct d; auto|].
    clear. induction (dm_configs d); constructor; auto. repeat split; auto. exists []. rewrite app_nil_r. auto.
  - assert (filter (fun q => descendant_of q p) (dm_elems d) = []) as Fe.
    { apply filter_none. intros q Hq. apply Hd; [simpl; auto|apply in_or_app; auto]. }
    destruct (do_add_spec y p None d at_ Hs) as [cfs1 [E1 F1]]; auto.
    { apply He. simpl. auto. }
    { rewrite Fe. apply separate_nil. }
    { apply NoDup_app_inv in Nd. tauto. }
    { apply NoDup_app_inv in Nd. destruct Nd as [_ [_ Nd]]. intros C. apply (Nd p C). simpl. auto. }
    { discriminate. }
    rewrite E1, Fe. cbn [existsb]. rewrite (filter_all _ _ (at_ ++ [(p, dm_id d)])) by auto. cbn [obind fst snd].
    assert (filter (not_below p) (dm_elems d) = dm_elems d) as Fn.
    { apply filter_all. intros q Hq. unfold not_below. rewrite Hd; [auto|simpl; auto|apply in_or_app; auto]. }
    rewrite Fn in *.
    assert (Forall2 (extended y [p]) (dm_configs d) cfs1) as G1.
    { eapply Forall2_impl2; [|exact F1]. intros c c' Ic [A1 [A2 [A3 [o [A4 [A5 [A6 _]]]]]]].
      repeat split; auto. exists [o]. rewrite A4. split; [|simpl; rewrite A5; auto]. f_equal.
      apply filter_all. intros a Ia. rewrite Hd; auto; [simpl; auto|]. apply in_or_app. left.
      destruct (Hc c Ic) as [Pc _]. apply (Permutation_in _ Pc). apply in_map. auto. }
    set (d1 := Domain _ _ _ _ _ _ _ _). assert (dm_elems d1 = dm_elems d ++ [p]) as D1 by auto.
    destruct (IH d1 (at_ ++ [(p, dm_id d)]) Hs) as [cfs' [E2 F2]].
    { intros q Hq. apply He. simpl. auto. }
    { intros c' Hc'. rewrite D1. destruct (Forall2_in_r _ _ _ _ _ c' G1 Hc') as [c [Ic Ec]].
      apply (extended_ok y [p] _ c); auto. }
    { rewrite D1, <- app_assoc. auto. }
    { intros a b Ha Hb. rewrite D1, <- app_assoc in Hb. apply Hd; simpl; auto. }
    exists cfs'. split.
    + rewrite E2. unfold d1. cbn [dm_id dm_name dm_aware dm_elems dm_last dm_syncers dm_fresh]. rewrite <- !app_assoc. auto.
    + eapply Forall2_impl2; [|exact (Forall2_comp _ _ _ _ _ _ _ _ G1 F2)]. intros c c' _ [m [X1 X2]].
      destruct X1 as [A1 [A2 [A3 [n1 [A4 [A5 A6]]]]]]. destruct X2 as [B1 [B2 [B3 [n2 [B4 [B5 B6]]]]]].
      repeat split; try congruence. exists (n1 ++ n2). rewrite B4, A4, <- app_assoc, map_app, A5, B5.
      split; auto. split; auto. apply Forall_app. auto.
Qed.

(** Children areas filled from the area of the element. *)
Lemma split_loop_spec : forall y o ps l, structure_ok y -> area_ok (sy_root y) o ->
  NoDup (map ar_pos l) -> Forall (area_ok (sy_root y)) l -> NoDup ps ->
  (forall p, In p ps -> In p (map ar_pos l) /\ above (ar_pos o) p) ->
  exists l', split_loop y o ps l = Ok l'
    /\ Forall2 (fun a a' => ar_pos a' = ar_pos a
         /\ if existsb (pos_eqb (ar_pos a)) ps
            then area_ok (sy_root y) a' /\ ar_valid a' = true
                 /\ (forall i, owns (sy_root y) (ar_pos a) i -> abit (sy_root y) a' i = abit (sy_root y) o i)
            else a' = a) l l'.
Proof.
  intros y o ps. induction ps as [|p ps IH]; intros l Hs Ho N Fa Np Hp; cbn [split_loop].
  - exists l. split; auto. clear. induction l; constructor; simpl; auto.
  - destruct (Hp p) as [H1 H2]; [simpl; auto|]. apply in_map_iff in H1. destruct H1 as [a [Ea Ia]]. inversion Np; subst.
    assert (area_ok (sy_root y) a) as Aa by (rewrite Forall_forall in Fa; auto).
    destruct (copy_from_above y a o (proj1 Hs) Aa Ho H2) as [a1 [C1 [C2 [C3 [C4 C5]]]]].
    rewrite (upd_area_map (ar_pos a) _ l a a1 N Ia eq_refl C1). cbn [obind].
    destruct (IH (map (replace_area (ar_pos a) a1) l)) as [l' [E1 E2]]; auto.
    + rewrite replace_area_pos; auto.
    + rewrite Forall_forall in *. intros b Hb. apply in_map_iff in Hb. destruct Hb as [c [<- Ic]]. unfold replace_area.
      destruct (pos_eqb (ar_pos c) (ar_pos a)); auto.
    + intros q Hq. rewrite replace_area_pos by auto. apply Hp. simpl. auto.
    + exists l'. split; auto.
      assert (forall l l', (forall b, In b l -> pos_eqb (ar_pos b) (ar_pos a) = true -> b = a) ->
        Forall2 (fun b b' => ar_pos b' = ar_pos b /\ if existsb (pos_eqb (ar_pos b)) ps then area_ok (sy_root y) b' /\ ar_valid b' = true
                 /\ (forall i, owns (sy_root y) (ar_pos b) i -> abit (sy_root y) b' i = abit (sy_root y) o i) else b' = b)
          (map (replace_area (ar_pos a) a1) l) l' ->
        Forall2 (fun b b' => ar_pos b' = ar_pos b /\ if existsb (pos_eqb (ar_pos b)) (ar_pos a :: ps) then area_ok (sy_root y) b' /\ ar_valid b' = true
                 /\ (forall i, owns (sy_root y) (ar_pos b) i -> abit (sy_root y) b' i = abit (sy_root y) o i) else b' = b) l l') as G.
      { clear - C2 C3 C4 C5 H3. induction l as [|b l IHl]; intros l' Hu H; simpl in H; inversion H as [|z0 b' z1 l'' X0 Y0]; subst; constructor.
        - clear IHl H. destruct X0 as [X1 X2]. unfold replace_area in *. cbn [existsb].
          destruct (pos_eqb (ar_pos b) (ar_pos a)) eqn:Q; cbn [orb]; auto.
          rewrite (Hu b) in * by (simpl; auto). split; [congruence|]. rewrite C3 in X2.
          destruct (existsb (pos_eqb (ar_pos a)) ps); auto. subst b'. auto.
        - apply IHl; auto. intros; apply Hu; simpl; auto. }
      apply G; auto. intros b Hb Q. apply pos_eqb_eq in Q. apply (NoDup_map_in _ _ ar_pos l); auto.
Qed.

(** The settings of configuration [c'] after the element at [p] was split in [ps]. *)
Definition splitted (y : system) (p : pos) (ps : list pos) (c c' : config) : Prop :=
  cf_id c' = cf_id c /\ cf_name c' = cf_name c /\ cf_rule c' = cf_rule c
  /\ exists o news, In o (cf_areas c) /\ ar_pos o = p
     /\ cf_areas c' = filter (fun a => negb (pos_eqb (ar_pos a) p)) (cf_areas c) ++ news
     /\ map ar_pos news = ps /\ Forall (area_ok (sy_root y)) news /\ Forall (fun a => ar_valid a = true) news
     /\ (forall a i, In a news -> owns (sy_root y) (ar_pos a) i -> abit (sy_root y) a i = abit (sy_root y) o i).

Lemma children_pos_In : forall p e q, In q (children_pos p e) <-> exists i, q = p ++ [i] /\ i < List.length (e_children e).
Proof.
  intros p e q. unfold children_pos. rewrite in_map_iff. split.
  - intros [i [H1 H2]]. apply in_seq in H2. exists i. split; [auto|lia].
  - intros [i [H1 H2]]. exists i. split; auto. apply in_seq. lia.
Qed.

Lemma children_pos_NoDup : forall p e, NoDup (children_pos p e).
Proof.
  intros. unfold children_pos. apply FinFun.Injective_map_NoDup; [|apply seq_NoDup]. intros a b H.
  apply app_inj_tail in H. tauto.
Qed.

Lemma child_desc : forall p i, descendant_of (p ++ [i]) p = true.
Proof.
  intros. apply descendant_spec. split; [exists [i]; auto|]. intros C. apply (f_equal (@List.length nat)) in C.
  rewrite app_length in C. simpl in C. lia.
Qed.

Lemma children_unrelated : forall (p : pos) i j, i <> j -> unrelated (p ++ [i]) (p ++ [j]).
Proof. intros p i j H. split; intros [r C]; rewrite <- app_assoc in C; apply app_inv_head in C; simpl in C; inversion C; congruence. Qed.

Lemma split_spec : forall y p e d at_, structure_ok y -> domain_ok y d -> In p (dm_elems d) ->
  elem_at (sy_root y) p = Some e -> e_children e <> [] ->
  exists cfs', dm_split y p d at_
    = Ok (true, (Domain (dm_id d) (dm_name d) (dm_aware d) (filter (fun q => negb (pos_eqb q p)) (dm_elems d) ++ children_pos p e)
                   cfs' (dm_last d) (fold_left (fun acc p => set_union acc (syncer_set y p)) (children_pos p e) (dm_syncers d)) (dm_fresh d),
                 detach p (dm_id d) (at_ ++ map (fun q => (q, dm_id d)) (children_pos p e))))
    /\ Forall2 (splitted y p (children_pos p e)) (dm_configs d) cfs'.
Proof.
  intros y p e d at_ Hs K Ip He Hc. unfold dm_split. unfold dm_contains.
  replace (existsb (pos_eqb p) (dm_elems d)) with true by (symmetry; apply existsb_exists; exists p; split; auto; apply pos_eqb_refl).
  rewrite He.
  assert (forall i, ~ In (p ++ [i]) (dm_elems d)) as Nch.
  { intros i C. destruct (dk_separate _ _ K) as [_ U].
    assert (p <> p ++ [i]) as N by (intros E; apply (f_equal (@List.length nat)) in E; rewrite app_length in E; simpl in E; lia).
    destruct (U p (p ++ [i]) Ip C N) as [U1 _]. apply U1. exists [i]. auto. }
  assert (forall i q, In q (dm_elems d) -> descendant_of q (p ++ [i]) = false) as Nd.
  { intros i q Iq. apply not_true_iff_false. rewrite descendant_spec. intros [A _].
    assert (above p q) as A2 by (eapply above_trans; [exists [i]; reflexivity|exact A]).
    destruct (pos_eq_dec p q) as [->|N].
    - destruct A as [r A]. apply (f_equal (@List.length nat)) in A. rewrite !app_length in A. simpl in A. lia.
    - destruct (proj2 (dk_separate _ _ K) p q Ip Iq N) as [U _]. auto. }
  destruct (do_add_all_spec y (children_pos p e) d at_ Hs) as [cfs1 [E1 F1]].
  { intros q Hq. apply children_pos_In in Hq. destruct Hq as [i [-> Hi]]. rewrite elem_at_app, He. simpl.
    destruct (nth_error (e_children e) i) eqn:En; [discriminate|]. apply nth_error_None in En. lia. }
  { apply (dk_configs _ _ K). }
  { apply NoDup_app; [apply (dk_separate _ _ K)|apply children_pos_NoDup|].
    intros q Q1 Q2. apply children_pos_In in Q2. destruct Q2 as [i [-> _]]. apply (Nch i Q1). }
  { intros a b Ha Hb. apply children_pos_In in Ha. destruct Ha as [i [-> _]]. apply in_app_or in Hb. destruct Hb as [Hb|Hb]; [auto|].
    apply children_pos_In in Hb. destruct Hb as [j [-> _]]. apply not_true_iff_false. rewrite descendant_spec. intros [A N].
    destruct (Nat.eq_dec i j) as [->|Nij]; [congruence|]. destruct (children_unrelated p i j Nij). auto. }
  assert (forall (A : Type) (u : A) (f : list pos -> A),
            match children_pos p e with [] => u | a :: l => f (a :: l) end = f (children_pos p e)) as Ec.
  { unfold children_pos. destruct (e_children e); [congruence|]. simpl. auto. }
  rewrite (Ec _ (Ok (false, (d, at_))) (fun ps =>
            do x <- do_add_all y ps d at_;
            do cfs <- omap_list (cf_split y p ps) (dm_configs (fst x));
            omap (pair true) (dm_do_remove y p false (with_configs (fst x) cfs) (snd x)))).
  rewrite E1. cbn [obind fst snd dm_configs]. set (ps := children_pos p e) in *.
  assert (Forall2 (fun c c' => exists c1, extended y ps c c1 /\ cf_split y p ps c1 = Ok c'
       /\ exists o news, In o (cf_areas c) /\ ar_pos o = p /\ cf_areas c' = cf_areas c ++ news /\ cf_id c' = cf_id c
            /\ cf_name c' = cf_name c /\ cf_rule c' = cf_rule c
            /\ map ar_pos news = ps /\ Forall (area_ok (sy_root y)) news /\ Forall (fun a => ar_valid a = true) news
            /\ (forall a i, In a news -> owns (sy_root y) (ar_pos a) i -> abit (sy_root y) a i = abit (sy_root y) o i)) (dm_configs d)
     (match omap_list (cf_split y p ps) cfs1 with Ok l => l | _ => [] end)
     /\ exists cfs2, omap_list (cf_split y p ps) cfs1 = Ok cfs2) as [G1 [cfs2 G2]].
  { assert (forall l l1, (forall c, In c l -> config_ok (sy_root y) (dm_elems d) c) -> Forall2 (extended y ps) l l1 ->
      exists l2, omap_list (cf_split y p ps) l1 = Ok l2 /\
       Forall2 (fun c c' => exists c1, extended y ps c c1 /\ cf_split y p ps c1 = Ok c'
       /\ exists o news, In o (cf_areas c) /\ ar_pos o = p /\ cf_areas c' = cf_areas c ++ news /\ cf_id c' = cf_id c
            /\ cf_name c' = cf_name c /\ cf_rule c' = cf_rule c
            /\ map ar_pos news = ps /\ Forall (area_ok (sy_root y)) news /\ Forall (fun a => ar_valid a = true) news
            /\ (forall a i, In a news -> owns (sy_root y) (ar_pos a) i -> abit (sy_root y) a i = abit (sy_root y) o i)) l l2) as G.
    { intros l l1 Hl H. induction H as [|c c1 l l1 X H IH]; [exists []; simpl; auto|].
      destruct IH as [l2 [M1 M2]]; [intros; apply Hl; simpl; auto|].
      pose proof X as [A1 [A2 [A3 [news [A4 [A5 A6]]]]]].
      assert (config_ok (sy_root y) (dm_elems d) c) as Kc by (apply Hl; simpl; auto). pose proof Kc as [Pc Ac].
      assert (In p (map ar_pos (cf_areas c))) as Ipc by (apply (Permutation_in _ (Permutation_sym Pc)); auto).
      apply in_map_iff in Ipc. destruct Ipc as [o [Eo Io]].
      assert (area_ok (sy_root y) o) as Ao by (rewrite Forall_forall in Ac; auto).
      assert (NoDup (map ar_pos (cf_areas c1))) as N1.
      { destruct (extended_ok y ps _ c c1 Kc X) as [P1 _]. apply (Permutation_NoDup (Permutation_sym P1)).
        apply NoDup_app; [apply (dk_separate _ _ K)|apply children_pos_NoDup|].
        intros q Q1 Q2. apply children_pos_In in Q2. destruct Q2 as [i [-> _]]. apply (Nch i Q1). }
      destruct (split_loop_spec y o ps (cf_areas c1) Hs Ao N1) as [l' [S1 S2]].
      { apply (extended_ok y ps _ c c1 Kc X). }
      { apply children_pos_NoDup. }
      { intros q Hq. split.
        - rewrite A4, map_app, A5. apply in_or_app. auto.
        - apply children_pos_In in Hq. destruct Hq as [i [-> _]]. rewrite Eo. exists [i]. auto. }
      cbn [omap_list]. assert (cf_split y p ps c1 = Ok (with_areas c1 l')) as Sp.
      { unfold cf_split. rewrite (get_area_In p _ o N1); auto; [|rewrite A4; apply in_or_app; auto]. cbn [obind]. rewrite S1. auto. }
      rewrite Sp. cbn [obind]. rewrite M1. cbn [obind]. eexists. split; [reflexivity|]. constructor; auto.
      exists c1. split; auto. split; auto.
      rewrite A4 in S2. apply Forall2_app_inv_l in S2. destruct S2 as [la [ln [S2 [S3 ->]]]].
      exists o, ln. split; auto. split; auto. cbn [cf_areas cf_id cf_name cf_rule with_areas].
      assert (la = cf_areas c) as ->.
      { assert (forall a, In a (cf_areas c) -> existsb (pos_eqb (ar_pos a)) ps = false) as Z.
        { intros a Ia. apply not_true_iff_false. rewrite existsb_exists. intros [q [Q1 Q2]]. apply pos_eqb_eq in Q2. subst q.
          apply children_pos_In in Q1. destruct Q1 as [i [Q1 _]]. apply (Nch i). rewrite <- Q1. apply (Permutation_in _ Pc). apply in_map. auto. }
        clear - S2 Z. induction S2; auto. f_equal.
        - destruct H as [_ H]. rewrite Z in H by (simpl; auto). auto.
        - apply IHS2. intros; apply Z; simpl; auto. }
      assert (forall a, In a news -> existsb (pos_eqb (ar_pos a)) ps = true) as Z.
      { intros a Ia. apply existsb_exists. exists (ar_pos a). split; [|apply pos_eqb_refl]. rewrite <- A5. apply in_map. auto. }
      assert (Forall2 (fun a a' => ar_pos a' = ar_pos a /\ area_ok (sy_root y) a' /\ ar_valid a' = true
        /\ (forall i, owns (sy_root y) (ar_pos a) i -> abit (sy_root y) a' i = abit (sy_root y) o i)) news ln) as S4.
      { eapply Forall2_impl2; [|exact S3]. intros a a' Ia [X1 X2]. rewrite (Z a Ia) in X2. tauto. }
      split; auto. split; auto. split; auto. split; auto. split; [|split; [|split]].
      + rewrite <- A5. apply Forall2_map_eq. eapply Forall2_impl2; [|exact S4]. simpl. tauto.
      + rewrite Forall_forall. intros a' Ia'. destruct (Forall2_in_r _ _ _ _ _ a' S4 Ia') as [a [_ Q]]. tauto.
      + rewrite Forall_forall. intros a' Ia'. destruct (Forall2_in_r _ _ _ _ _ a' S4 Ia') as [a [_ Q]]. tauto.
      + intros a' i Ia' Oi. destruct (Forall2_in_r _ _ _ _ _ a' S4 Ia') as [a [_ [Q1 [_ [_ Q2]]]]]. apply Q2. rewrite <- Q1. auto. }
    destruct (G (dm_configs d) cfs1 (dk_configs _ _ K) F1) as [l2 [M1 M2]]. rewrite M1. eauto. }
  rewrite G2 in *. cbn [obind].
  unfold dm_do_remove. cbn [dm_elems with_configs with_elems dm_configs].
  assert (exists cfs3, omap_list (cf_remove p) cfs2 = Ok cfs3 /\ Forall2 (splitted y p ps) (dm_configs d) cfs3) as [cfs3 [R1 R2]].
  { pose proof (dk_configs _ _ K) as Hk. revert G1 Hk. generalize (dm_configs d). clear - Ip K Nch. intros l H Hk.
    induction H as [|c c2 l l2 X H IH]; [exists []; simpl; auto|].
    destruct IH as [l3 [M1 M2]]; [intros; apply Hk; simpl; auto|].
    destruct X as [c1 [_ [_ [o [news [X1 [X2 [X3 [X4 [X5 [X6 [X7 [X8 [X9 X10]]]]]]]]]]]]]].
    destruct (Hk c) as [Pc Ac]; [simpl; auto|].
    assert (NoDup (map ar_pos (cf_areas c2))) as N2.
    { rewrite X3, map_app, X7. apply NoDup_app; [apply (Permutation_NoDup (Permutation_sym Pc)); apply (dk_separate _ _ K)|apply children_pos_NoDup|].
      intros q Q1 Q2. apply children_pos_In in Q2. destruct Q2 as [i [-> _]]. apply (Nch i). apply (Permutation_in _ Pc). auto. }
    cbn [omap_list]. unfold cf_remove at 1. rewrite remove_area_filter; auto.
    - unfold omap. cbn [obind]. rewrite M1. cbn [obind]. eexists. split; [reflexivity|]. constructor; auto.
      unfold splitted. cbn [cf_id cf_name cf_rule cf_areas with_areas]. do 3 (split; auto). exists o, news. split; auto. split; auto. split; auto.
      rewrite X3, filter_app. f_equal. apply filter_all. intros a Ia. apply negb_true_iff, pos_eqb_neq. intros E.
      assert (In (ar_pos a) ps) as Q by (rewrite <- X7; apply in_map; auto).
      apply children_pos_In in Q. destruct Q as [i [Q _]]. rewrite E in Q. apply (f_equal (@List.length nat)) in Q. rewrite app_length in Q. simpl in Q. lia.
    - rewrite X3, map_app. apply in_or_app. left. rewrite <- X2. apply in_map. auto. }
  rewrite R1. cbn [obind]. unfold omap. cbn [obind]. exists cfs3. split; auto.
  unfold with_configs, with_elems. simpl. do 4 f_equal. rewrite filter_app. f_equal. apply filter_all. intros q Hq.
  apply negb_true_iff, pos_eqb_neq. intros ->. apply children_pos_In in Hq. destruct Hq as [i [Q _]].
  apply (f_equal (@List.length nat)) in Q. rewrite app_length in Q. simpl in Q. lia.
Qed.
