(** The start of the framework: what is read back from the hardware, and what the memory holds then. *)
From Coq Require Import List Arith ZArith Bool Sorted Permutation Lia.
From Verif Require Import Base BaseProofs BlackboardModel BlackboardProofs CriterionModel RuleModel RuleSpec RuleProofs TreeModel TreeSpec TreeProofs MemSpec MemProofs SyncModel SyncProofs DomainModel DomainSpec
  AreaProofs DomainProofs DomainInv DomainApply DomainsInv MgrModel MgrSpec MgrProofs MgrFlow MgrSkel ApplySpec ApplyProofs RogueProofs LoadModel LoadSpec.
Import ListNotations.
Local Open Scope nat_scope.

(** ** The syncers and their elements *)

Lemma owners_In : forall own e p s q, In (s, q) (owners own e p) <-> exists r, q = p ++ r /\ elem_at e r <> None /\ own q = Some s.
Proof.
  intros own. induction e as [nm k cs IH] using elem_ind_nested. intros p s q. cbn [owners]. rewrite in_app_iff.
  assert (forall l i, (forall j c, nth_error l j = Some c -> forall p s q, In (s, q) (owners own c p) <-> exists r, q = p ++ r /\ elem_at c r <> None /\ own q = Some s) ->
    (In (s, q) ((fix go (cs : list elem) (i : nat) : list (nat * pos) := match cs with [] => [] | c :: r => owners own c (p ++ [i]) ++ go r (S i) end) l i) <->
     exists j c r, nth_error l j = Some c /\ q = p ++ (i + j) :: r /\ elem_at c r <> None /\ own q = Some s)) as G.
  { induction l as [|c l IHl]; intros i Hl.
    - split; [intros []|]. intros [j [c [r [C _]]]]. destruct j; discriminate.
    - rewrite in_app_iff, (Hl 0 c eq_refl), IHl by (intros j; apply (Hl (S j))). split.
      + intros [[r [-> [E O]]]|[j [x [r [E1 [-> [E2 O]]]]]]].
        * exists 0, c, r. rewrite <- app_assoc in *. rewrite Nat.add_0_r. split; auto.
        * exists (S j), x, r. split; auto. rewrite Nat.add_succ_r. auto.
      + intros [j [x [r [E1 [-> [E2 O]]]]]]. destruct j as [|j].
        * left. inversion E1; subst. exists r. rewrite <- app_assoc, Nat.add_0_r in *. auto.
        * right. exists j, x, r. split; auto. rewrite Nat.add_succ_r in *. auto. }
  rewrite (G cs 0).
  2:{ intros j c E. rewrite Forall_forall in IH. apply IH. apply (nth_error_In _ _ E). }
  split.
  - intros [H|[j [c [r [E [-> [Er O]]]]]]].
    + destruct (own p) as [x|] eqn:Ep; [|destruct H]. destruct H as [H|[]]. inversion H; subst. exists []. rewrite app_nil_r. split; auto. split; [discriminate|auto].
    + exists (j :: r). split; auto. split; auto. cbn [elem_at e_children]. rewrite E. auto.
  - intros [r [-> [E O]]]. destruct r as [|j r].
    + left. rewrite app_nil_r in *. rewrite O. left. auto.
    + right. cbn [elem_at e_children] in E. destruct (nth_error cs j) as [c|] eqn:Ej; [|congruence]. exists j, c, r. auto.
Qed.

Lemma find_owner : forall y o s, own_apart y -> sy_own y o = Some s -> elem_at (sy_root y) o <> None ->
  exists t, find (fun x => fst x =? s) (owners (sy_own y) (sy_root y) []) = Some (t, o).
Proof.
  intros y o s A O E. destruct (find (fun x => fst x =? s) (owners (sy_own y) (sy_root y) [])) as [[t p]|] eqn:F.
  - apply find_some in F. destruct F as [F1 F2]. cbn [fst] in F2. apply Nat.eqb_eq in F2. subst t. apply owners_In in F1. destruct F1 as [r [_ [_ F1]]].
    rewrite (A p o s F1 O). eauto.
  - exfalso. assert (In (s, o) (owners (sy_own y) (sy_root y) [])) as I by (apply owners_In; exists o; auto).
    apply (find_none _ _ F) in I. cbn [fst] in I. rewrite Nat.eqb_refl in I. discriminate.
Qed.

Lemma found_owner : forall y s t p, find (fun x => fst x =? s) (owners (sy_own y) (sy_root y) []) = Some (t, p) -> sy_own y p = Some s /\ elem_at (sy_root y) p <> None.
Proof.
  intros y s t p F. apply find_some in F. destruct F as [F1 F2]. cbn [fst] in F2. apply Nat.eqb_eq in F2. subst t. apply owners_In in F1. destruct F1 as [r [-> [E O]]]. auto.
Qed.

(** ** One syncer *)

Lemma defaults_at : forall root p e bb, elem_wf root = true -> elem_at root p = Some e -> List.length bb = footprint root ->
  exists bb', set_defaults e (offset root p) 0 bb = Ok bb' /\ List.length bb' = List.length bb
    /\ (forall i, i < offset root p \/ offset root p + footprint e <= i -> nth_error bb' i = nth_error bb i)
    /\ ((forall t, e_kind e <> KdBit t) -> forall r c, elem_at e r = Some c -> is_param (e_kind c) = true -> holds_default (e_kind c) (offset root (p ++ r)) bb').
Proof.
  intros root p e bb W E L. destruct (elem_wf_at p root e W E) as [X|[t [nm [-> _]]]].
  - destruct (set_defaults_spec e (offset root p) bb X) as [bb' [H1 [H2 [H3 H4]]]].
    + rewrite L. pose proof (inside_in p root e 0 W E) as R. fold (offset root p) in R. lia.
    + exists bb'. split; auto. split; auto. split; auto. intros _ r c Hr Pc. rewrite (offset_app p r root e E). apply H4; auto.
  - exists bb. split; auto. split; auto. split; auto. intros C. destruct (C t). auto.
Qed.

(** A syncer only changes its element. *)
Lemma back_one_ok : forall y answer s bb, elem_wf (sy_root y) = true -> answers_ok y answer -> List.length bb = footprint (sy_root y) ->
  exists bb', back_one y answer s bb = Ok bb' /\ List.length bb' = footprint (sy_root y)
    /\ (forall i, (forall o e, sy_own y o = Some s -> elem_at (sy_root y) o = Some e -> i < offset (sy_root y) o \/ offset (sy_root y) o + footprint e <= i) -> nth_error bb' i = nth_error bb i).
Proof.
  intros y answer s bb W A L. unfold back_one. destruct (find _ _) as [[t p]|] eqn:F; [|exists bb; auto].
  destruct (found_owner _ _ _ _ F) as [O E]. destruct (elem_at (sy_root y) p) as [e|] eqn:Ee; [|exists bb; auto].
  destruct (answer s) as [bytes|] eqn:Ea.
  - rewrite (A p e s bytes O Ee Ea), Nat.eqb_refl. unfold bb_write_bytes, bb_access_ok, bb_size.
    pose proof (inside_in p (sy_root y) e 0 W Ee) as R. fold (offset (sy_root y) p) in R. pose proof (A p e s bytes O Ee Ea) as Lb.
    replace (offset (sy_root y) p + List.length bytes <=? List.length bb) with true by (symmetry; apply Nat.leb_le; lia).
    eexists. split; [reflexivity|]. split; [rewrite overwrite_length; lia|]. intros i Hi. apply nth_error_overwrite_out; [lia|]. rewrite Lb. apply (Hi p e); auto.
  - destruct (defaults_at (sy_root y) p e bb W Ee L) as [bb' [H1 [H2 [H3 _]]]]. exists bb'. split; auto. split; [lia|]. intros i Hi. apply H3. apply (Hi p e); auto.
Qed.

(** Bit [i] of the parameter [q], whose syncer is the one of [o]: the syncers of other elements do not change it. *)
Lemma other_syncer : forall y answer s bb bb' q e o x i, system_ok y -> own_apart y -> answers_ok y answer -> List.length bb = footprint (sy_root y) -> param_at (sy_root y) q e ->
  sy_own y o = Some x -> above o q -> s <> x -> owns (sy_root y) q i -> back_one y answer s bb = Ok bb' -> mbit bb' i = mbit bb i.
Proof.
  intros y answer s bb bb' q e o x i [Hst One] A An L Hq O Ab Ns Hi H. destruct (back_one_ok y answer s bb (proj1 Hst) An L) as [b1 [H1 [_ H2]]].
  rewrite H in H1. inversion H1; subst b1. apply mbit_same_byte. apply H2. intros o2 e2 O2 E2. apply (bytes_elsewhere (sy_root y) o2 e2 q e i); auto.
  intros C. destruct (above_both o o2 q Ab C) as [D|D].
  - assert (o = o2) by (apply (One o o2 x s); auto). subst. congruence.
  - assert (o2 = o) by (apply (One o2 o s x); auto). subst. congruence.
Qed.

Lemma fold_ok : forall y answer ss bb, elem_wf (sy_root y) = true -> answers_ok y answer -> List.length bb = footprint (sy_root y) ->
  exists bb', ofold (back_one y answer) ss bb = Ok bb' /\ List.length bb' = footprint (sy_root y).
Proof.
  intros y answer ss. induction ss as [|s ss IH]; intros bb W A L; [exists bb; auto|]. cbn [ofold].
  destruct (back_one_ok y answer s bb W A L) as [b1 [H1 [H2 _]]]. rewrite H1. cbn [obind]. apply IH; auto.
Qed.

(** After the calls, a parameter has what its own syncer wrote, or what it had before. *)
Lemma fold_bits : forall y answer ss bb bb' q e o x, system_ok y -> own_apart y -> answers_ok y answer -> List.length bb = footprint (sy_root y) -> param_at (sy_root y) q e ->
  sy_own y o = Some x -> above o q -> NoDup ss -> ofold (back_one y answer) ss bb = Ok bb' ->
  (~ In x ss -> same_setting (sy_root y) q 0 bb' 0 bb)
  /\ (In x ss -> exists b1 b2, List.length b1 = footprint (sy_root y) /\ back_one y answer x b1 = Ok b2 /\ same_setting (sy_root y) q 0 b1 0 bb /\ same_setting (sy_root y) q 0 bb' 0 b2).
Proof.
  intros y answer ss. induction ss as [|s ss IH]; intros bb bb' q e o x Sy A An L Hq O Ab Nd H; cbn [ofold] in H.
  - inversion H; subst. split; [intros _ i _; auto|intros []].
  - inversion Nd as [|s0 l0 N1 N2]; subst. destruct (back_one_ok y answer s bb (proj1 (proj1 Sy)) An L) as [b1 [H1 [H2 _]]]. rewrite H1 in H. cbn [obind] in H.
    destruct (IH b1 bb' q e o x Sy A An H2 Hq O Ab N2 H) as [I1 I2]. split.
    + intros N i Hi. rewrite I1; auto; [|intros C; apply N; right; auto]. rewrite Nat.mul_0_r, Nat.sub_0_r.
      apply (other_syncer y answer s bb b1 q e o x i); auto. intros ->. apply N. left. auto.
    + intros Hx. destruct (Nat.eq_dec s x) as [->|Ns].
      * exists bb, b1. split; auto. split; auto. split; [intros i _; auto|]. apply I1. auto.
      * destruct Hx as [C|Hx]; [congruence|]. destruct (I2 Hx) as [b2 [b3 [J1 [J2 [J3 J4]]]]]. exists b2, b3. split; auto. split; auto. split; auto.
        intros i Hi. rewrite J3; auto. rewrite Nat.mul_0_r, Nat.sub_0_r. apply (other_syncer y answer s bb b1 q e o x i); auto.
Qed.

(** ** What is read back *)

Lemma no_valid_spec : forall y cs s p, domains_ok y s -> (forall d, In d (ds_list s) -> scoped cs d) ->
  (no_valid_domain cs s p = true <-> ~ exists d c a, In d (ds_list s) /\ first_match cs d c /\ In a (cf_areas c) /\ ar_valid a = true /\ ar_pos a = p).
Proof.
  intros y cs s p K Sc. unfold no_valid_domain. rewrite negb_true_iff. rewrite <- not_true_iff_false. apply not_iff_compat. rewrite existsb_exists. split.
  - intros [id [Hid H]]. apply existsb_exists in H. destruct H as [d [Hd H]]. apply andb_true_iff in H. destruct H as [_ H]. unfold dm_applicable_valid in H.
    destruct (dm_applicable cs d) as [c|] eqn:Ec; [|discriminate]. unfold cf_is_valid in H. destruct (get_area p (cf_areas c)) as [a| | |] eqn:Ea; try discriminate.
    cbn [omap obind] in H. apply get_area_Ok in Ea. exists d, c, a. split; auto. split; [apply applicable_first; auto|]. tauto.
  - intros [d [c [a [Hd [Hc [Ha [V <-]]]]]]]. exists (dm_id d).
    pose proof (ds_domain _ _ K d Hd) as Kd. pose proof (first_match_In _ _ _ Hc) as Ic. destruct (dk_configs _ _ Kd c Ic) as [Pm _].
    assert (In (ar_pos a) (dm_elems d)) as Ip by (apply (Permutation_in _ Pm); apply in_map; auto). split.
    + unfold attached_to. apply in_map_iff. exists (ar_pos a, dm_id d). split; auto. apply filter_In. split; [apply (ds_attached _ _ K); exists d; auto|]. cbn [fst]. apply pos_eqb_refl.
    + apply existsb_exists. exists d. split; auto. rewrite Nat.eqb_refl. cbn [andb]. unfold dm_applicable_valid. rewrite (proj2 (applicable_first cs d c (Sc d Hd)) Hc).
      unfold cf_is_valid. rewrite (get_area_In (ar_pos a) (cf_areas c) a); auto. apply (Permutation_NoDup (Permutation_sym Pm)). apply (dk_separate _ _ Kd).
Qed.

Lemma uncontrolled_free : forall y cs s q, domains_ok y s -> (forall d, In d (ds_list s) -> scoped cs d) ->
  (~ controlled cs s q <-> forall p, above p q -> no_valid_domain cs s p = true).
Proof.
  intros y cs s q K Sc. split.
  - intros N p Hp. apply (no_valid_spec y cs s p K Sc). intros [d [c [a [H1 [H2 [H3 [H4 <-]]]]]]]. apply N. exists d, c, a. auto 10.
  - intros H [d [c [a [H1 [H2 [H3 [H4 H5]]]]]]]. pose proof (H _ H5) as C. apply (no_valid_spec y cs s _ K Sc) in C. apply C. exists d, c, a. auto 10.
Qed.

Lemma fill_In : forall y p ss x, one_syncer y -> elem_at (sy_root y) p <> None -> (In x (fill_syncer_set y p ss) <-> In x ss \/ In x (syncer_set y p)).
Proof.
  intros y p ss x O E. unfold syncer_set, fill_syncer_set. destruct (get_syncer y p); [rewrite !set_add_In; simpl; tauto|].
  destruct (elem_at (sy_root y) p) as [e|]; [|congruence]. rewrite !fill_desc_In. simpl. tauto.
Qed.

Lemma fill_sorted : forall y p ss, StronglySorted lt ss -> StronglySorted lt (fill_syncer_set y p ss).
Proof.
  intros y p ss H. unfold fill_syncer_set. destruct (get_syncer y p); [apply set_add_sorted; auto|]. destruct (elem_at (sy_root y) p); auto. apply fill_desc_sorted. auto.
Qed.

Lemma back_fold_In : forall y ps ss x, one_syncer y -> (forall p, In p ps -> elem_at (sy_root y) p <> None) ->
  (In x (fold_left (fun ss p => fill_syncer_set y p ss) ps ss) <-> In x ss \/ exists p, In p ps /\ serves y x p).
Proof.
  intros y ps. induction ps as [|p ps IH]; intros ss x O He; cbn [fold_left].
  - split; auto. intros [H|[p [[] _]]]; auto.
  - rewrite IH; auto; [|intros k Hk; apply He; right; auto]. rewrite fill_In; auto; [|apply He; left; auto]. rewrite (serves_linked y x p O) by (apply He; left; auto). split.
    + intros [[H|H]|[k [H1 H2]]]; auto; right; [exists p|exists k]; split; auto; [left|right]; auto.
    + intros [H|[k [[->|H1] H2]]]; auto. right. exists k. auto.
Qed.

Lemma back_fold_sorted : forall y ps ss, StronglySorted lt ss -> StronglySorted lt (fold_left (fun ss p => fill_syncer_set y p ss) ps ss).
Proof. intros y ps. induction ps as [|p ps IH]; intros ss H; cbn [fold_left]; auto. apply IH. apply fill_sorted. auto. Qed.

Lemma back_elements_spec : forall y cs s p, In p (back_sync_elements cs s (sy_root y) []) <-> gathered (no_valid_domain cs s) (sy_root y) [] p.
Proof.
  intros y cs s p. unfold back_sync_elements. destruct (aggregate_spec (no_valid_domain cs s) (sy_root y) []) as [_ [H _]]. rewrite H. split; [intros [r [-> G]]; auto|]. intros G. exists p. auto.
Qed.

Lemma back_elements_exist : forall y cs s p, In p (back_sync_elements cs s (sy_root y) []) -> elem_at (sy_root y) p <> None.
Proof. intros y cs s p H. apply back_elements_spec in H. destruct H as [c [E _]]. congruence. Qed.

(** A leaf is below one of the elements to read back exactly when it is uncontrolled. *)
Lemma leaf_read : forall y cs s q e, domains_ok y s -> (forall d, In d (ds_list s) -> scoped cs d) -> elem_at (sy_root y) q = Some e -> e_children e = [] ->
  ((exists p, In p (back_sync_elements cs s (sy_root y) []) /\ above p q) <-> ~ controlled cs s q).
Proof.
  intros y cs s q e K Sc E C. rewrite (uncontrolled_free y cs s q K Sc). rewrite <- (gathered_covers (no_valid_domain cs s) (sy_root y) [] q e E C). split.
  - intros [p [H1 H2]]. exists p. split; auto. apply back_elements_spec. auto.
  - intros [p [H1 H2]]. exists p. split; auto. apply back_elements_spec. auto.
Qed.

(** Every element has a leaf. *)
Lemma some_leaf : forall e, exists r c, elem_at e r = Some c /\ e_children c = [].
Proof.
  induction e as [nm k cs IH] using elem_ind_nested. destruct cs as [|c cs]; [exists [], (Elem nm k []); auto|].
  rewrite Forall_forall in IH. destruct (IH c) as [r [x [H1 H2]]]; [left; auto|]. exists (0 :: r), x. auto.
Qed.

(** The syncers called: those of the uncontrolled leaves. *)
Lemma back_syncers_In : forall y cs s x, system_ok y -> domains_ok y s -> (forall d, In d (ds_list s) -> scoped cs d) ->
  (In x (back_syncers y cs s) <-> exists q e, elem_at (sy_root y) q = Some e /\ e_children e = [] /\ ~ controlled cs s q /\ serves y x q).
Proof.
  intros y cs s x [Hst One] K Sc. unfold back_syncers. rewrite back_fold_In; auto; [|apply back_elements_exist]. split.
  - intros [[]|[p [Hp [o [[Ab|Ab] [O E]]]]]].
    + destruct (elem_at (sy_root y) p) as [e|] eqn:Ep; [|exfalso; apply (back_elements_exist _ _ _ _ Hp Ep)].
      destruct (some_leaf e) as [r [c [H1 H2]]]. exists (p ++ r), c. rewrite elem_at_app, Ep. split; auto. split; auto. split.
      * apply (leaf_read y cs s (p ++ r) c K Sc); auto; [rewrite elem_at_app, Ep; auto|]. exists p. split; auto. exists r. auto.
      * exists o. split; auto. left. apply (above_trans o p); auto. exists r. auto.
    + destruct (elem_at (sy_root y) o) as [e|] eqn:Eo; [|congruence].
      destruct (some_leaf e) as [r [c [H1 H2]]]. exists (o ++ r), c. rewrite elem_at_app, Eo. split; auto. split; auto. split.
      * apply (leaf_read y cs s (o ++ r) c K Sc); auto; [rewrite elem_at_app, Eo; auto|]. exists p. split; auto. apply (above_trans p o); auto. exists r. auto.
      * exists o. split; [left; exists r; auto|]. split; auto. congruence.
  - intros [q [e [E [C [N [o [Ab [O Eo]]]]]]]]. right. apply (leaf_read y cs s q e K Sc E C) in N. destruct N as [p [Hp Hq]]. exists p. split; auto.
    exists o. split; auto. destruct Ab as [Ab|Ab].
    + destruct (above_both o p q Ab Hq); auto.
    + right. apply (above_trans p q); auto.
Qed.

Lemma param_leaf_children : forall root q e, elem_wf root = true -> param_at root q e -> e_children e = [].
Proof.
  intros root q e W [E P]. destruct (elem_wf_at q root e W E) as [X|[t [nm [-> _]]]]; auto. apply param_no_children; auto.
Qed.

(** ** The application at the start *)

Lemma covers_dec : forall d q, covers d q \/ ~ covers d q.
Proof.
  intros d q. destruct (existsb (fun p => above_b p q) (dm_elems d)) eqn:E.
  - left. apply existsb_exists in E. destruct E as [p [H1 H2]]. exists p. split; auto. apply above_b_spec. auto.
  - right. intros [p [H1 H2]]. apply above_b_spec in H2. enough (existsb (fun p => above_b p q) (dm_elems d) = true) by congruence. apply existsb_exists. exists p. auto.
Qed.

Lemma last_decides : forall cs force q l, (forall d, In d l -> scoped cs d) ->
  (forall d c, In d l -> switches cs force d c -> ~ covers d q)
  \/ exists l1 d c l2, l = l1 ++ d :: l2 /\ switches cs force d c /\ covers d q /\ forall k kc, In k l2 -> switches cs force k kc -> ~ covers k q.
Proof.
  intros cs force q l. induction l as [|d l IH]; intros Sc; [left; intros d c []|].
  destruct IH as [H|[l1 [k [c [l2 [-> [H1 [H2 H3]]]]]]]]; [intros; apply Sc; right; auto| |].
  - destruct (chosen cs force d) as [c|] eqn:Ec.
    + destruct (covers_dec d q) as [Cv|Cv].
      * right. exists [], d, c, l. split; auto. split; [apply chosen_switches; auto; apply Sc; left; auto|]. split; auto.
      * left. intros k kc [<-|Hk]; auto. apply H. auto.
    + left. intros k kc [<-|Hk] Sw; [|apply (H k kc); auto]. apply (chosen_switches cs force d kc) in Sw; [congruence|apply Sc; left; auto].
  - right. exists (d :: l1), k, c, l2. auto.
Qed.

(** Validation keeps the rules, hence the configuration chosen. *)
Lemma first_match_back : forall cs d d' c' (R : config -> config -> Prop), (forall c c', R c c' -> cf_rule c' = cf_rule c) ->
  Forall2 R (dm_configs d) (dm_configs d') -> first_match cs d' c' -> exists c, first_match cs d c /\ R c c'.
Proof.
  intros cs d d' c' R HR F [l1 [l2 [E [M N]]]]. rewrite E in F. apply Forall2_app_inv_r in F. destruct F as [k1 [k2 [F1 [F2 E2]]]].
  inversion F2 as [|c c0 k3 l0 Rc F3]; subst. exists c. split; auto. exists k1, k3. split; auto. unfold matches in *. split.
  - destruct M as [r [M1 M2]]. exists r. rewrite <- (HR c c' Rc). auto.
  - intros k Hk [r [C1 C2]]. destruct (Forall2_in_l _ _ _ _ _ k F1 Hk) as [k' [I1 I2]]. apply (N k' I1). exists r. rewrite (HR k k' I2). auto.
Qed.

Lemma first_match_forth : forall cs d d' c (R : config -> config -> Prop), (forall c c', R c c' -> cf_rule c' = cf_rule c) ->
  Forall2 R (dm_configs d) (dm_configs d') -> first_match cs d c -> exists c', first_match cs d' c' /\ R c c'.
Proof.
  intros cs d d' c R HR F [l1 [l2 [E [M N]]]]. rewrite E in F. apply Forall2_app_inv_l in F. destruct F as [k1 [k2 [F1 [F2 E2]]]].
  inversion F2 as [|c0 c' l0 k3 Rc F3]; subst. exists c'. split; auto. exists k1, k3. split; auto. unfold matches in *. split.
  - destruct M as [r [M1 M2]]. exists r. rewrite (HR c c' Rc). auto.
  - intros k Hk [r [C1 C2]]. destruct (Forall2_in_r _ _ _ _ _ k F1 Hk) as [k' [I1 I2]]. apply (N k' I1). exists r. rewrite <- (HR k' k I2). auto.
Qed.

Lemma loadable_scoped : forall y cs s bb, loadable y cs s bb -> forall d, In d (ds_list s) -> scoped cs d.
Proof. intros y cs s bb [_ [_ [R _]]] d Hd c r Hc Er. apply (R d c r); auto. Qed.

(** The start does not change an uncontrolled parameter. *)
Lemma uncontrolled_kept : forall y allowed cs s bb m q e, system_ok y -> loadable y cs s bb -> load y allowed cs s bb = Ok m -> param_at (sy_root y) q e ->
  ~ controlled cs s q -> same_setting (sy_root y) q 0 (mg_main m) 0 bb.
Proof.
  intros y al cs s bb m q e Sy Hl H Hq N. destruct (load_ok y al cs s bb Sy Hl) as [m1 [s1 [E1 [E2 [E3 [M0 [R0 _]]]]]]]. rewrite H in E1. inversion E1; subst m1.
  destruct Hl as [_ [K [_ L]]]. destruct (ds_validate_ok y bb s (proj1 Sy) K L) as [s2 [V1 [_ [_ [_ F]]]]]. rewrite E2 in V1. inversion V1; subst s2.
  destruct (do_apply_spec y true [] _ Sy M0 R0) as [m2 [mid [ev [parts [D1 [_ [_ [_ [_ [_ [Ap _]]]]]]]]]]]. rewrite E3 in D1. inversion D1; subst m2.
  cbn [mg_main mg_doms mg_crits] in Ap. destruct (Ap q e Hq) as [A1 A2].
  destruct (last_decides cs true q (apply_order (ds_list s1))) as [Dn|[l1 [d' [c' [l2 [D2 [D3 [D4 D5]]]]]]]].
  { intros d Hd. apply (rules_scoped _ d R0). cbn [mg_doms]. unfold apply_order in Hd. apply in_app_iff in Hd. destruct Hd as [Hd|Hd]; apply filter_In in Hd; tauto. }
  - auto.
  - destruct (A2 l1 d' c' l2 D2 D3 D4 D5) as [a' [Ha' [Hab Hr]]]. destruct D3 as [D3 _].
    assert (In d' (ds_list s1)) as Hd'. { assert (In d' (apply_order (ds_list s1))) as I by (rewrite D2; apply in_elt). unfold apply_order in I. apply in_app_iff in I. destruct I as [I|I]; apply filter_In in I; tauto. }
    destruct (Forall2_in_r _ _ _ _ _ d' F Hd') as [d [Hd [_ [_ [_ [_ [_ G]]]]]]].
    destruct (first_match_back cs d d' c' _ (fun c c' X => proj1 (proj2 (proj2 X))) G D3) as [c [Hc [_ [_ [_ I]]]]].
    destruct (Forall2_in_r _ _ _ _ _ a' I Ha') as [a [Ha [P1 [P2 [P3 P4]]]]]. destruct (ar_valid a) eqn:V.
    + exfalso. apply N. exists d, c, a. rewrite <- P1. auto 10.
    + intros i Hi. rewrite <- (Hr i Hi). rewrite Nat.mul_0_r, Nat.sub_0_r. apply (P4 eq_refl). rewrite <- P1. destruct P2 as [x [X _]].
      apply (owns_above (sy_root y) (ar_pos a') q i (proj1 (proj1 Sy))); eauto.
Qed.

Lemma Forall2_filter : forall A B (R : A -> B -> Prop) f g l l', Forall2 R l l' -> (forall x z, R x z -> f x = g z) -> Forall2 R (filter f l) (filter g l').
Proof. intros A B R f g l l' F H. induction F as [|x z l l' X F IH]; simpl; auto. rewrite (H x z X). destruct (g z); auto. Qed.

(** A controlled parameter has the setting of the last domain that records it. *)
Lemma controlled_set : forall y allowed cs s bb m q e l1 d c a l2, system_ok y -> loadable y cs s bb -> load y allowed cs s bb = Ok m -> param_at (sy_root y) q e ->
  apply_order (ds_list s) = l1 ++ d :: l2 -> first_match cs d c -> In a (cf_areas c) -> ar_valid a = true -> above (ar_pos a) q ->
  (forall k kc, In k l2 -> first_match cs k kc -> ~ covers k q) -> same_setting (sy_root y) q 0 (mg_main m) (offset (sy_root y) (ar_pos a)) (ar_bb a).
Proof.
  intros y al cs s bb m q e l1 d c a l2 Sy Hl H Hq Eo Fm Ha V Ab La. destruct (load_ok y al cs s bb Sy Hl) as [m1 [s1 [E1 [E2 [E3 [M0 [R0 _]]]]]]]. rewrite H in E1. inversion E1; subst m1.
  destruct Hl as [_ [K [_ L]]]. destruct (ds_validate_ok y bb s (proj1 Sy) K L) as [s2 [V1 [K1 [_ [_ F]]]]]. rewrite E2 in V1. inversion V1; subst s2.
  destruct (do_apply_spec y true [] _ Sy M0 R0) as [m2 [mid [ev [parts [D1 [_ [_ [_ [_ [_ [Ap _]]]]]]]]]]]. rewrite E3 in D1. inversion D1; subst m2.
  cbn [mg_main mg_doms mg_crits] in Ap. destruct (Ap q e Hq) as [_ A2].
  match type of F with Forall2 ?R _ _ => assert (Forall2 R (apply_order (ds_list s)) (apply_order (ds_list s1))) as Fo; [|set (RD := R) in *] end.
  { unfold apply_order. apply Forall2_app; apply Forall2_filter; auto; intros x z [_ [_ [_ [_ [-> _]]]]]; auto. }
  rewrite Eo in Fo. apply Forall2_app_inv_l in Fo. destruct Fo as [k1 [k2 [F1 [F2 Eo']]]]. inversion F2 as [|d0 d' l0 k3 Rd F3]; subst.
  pose proof Rd as [_ [_ [Ee [_ [_ G]]]]].
  destruct (first_match_forth cs d d' c _ (fun c c' X => proj1 (proj2 (proj2 X))) G Fm) as [c' [Fm' [_ [_ [_ I]]]]].
  destruct (Forall2_in_l _ _ _ _ _ a I Ha) as [a' [Ha' [P1 [P2 [P3 P4]]]]]. rewrite (P3 V) in Ha'.
  assert (In d (ds_list s)) as Hd. { assert (In d (apply_order (ds_list s))) as X by (rewrite Eo; apply in_elt). unfold apply_order in X. apply in_app_iff in X. destruct X as [X|X]; apply filter_In in X; tauto. }
  assert (In d' (ds_list s1)) as Hd'. { assert (In d' (apply_order (ds_list s1))) as X by (rewrite Eo'; apply in_elt). unfold apply_order in X. apply in_app_iff in X. destruct X as [X|X]; apply filter_In in X; tauto. }
  assert (config_ok (sy_root y) (dm_elems d') c') as Kc' by (apply (dk_configs _ _ (ds_domain _ _ K1 d' Hd')); apply (first_match_In _ _ _ Fm')).
  assert (In (ar_pos a) (dm_elems d')) as Ip by (apply (Permutation_in _ (proj1 Kc')); apply in_map; auto).
  destruct (A2 k1 d' c' k3 Eo') as [z [Hz [Zb Zr]]].
  - split; auto.
  - exists (ar_pos a). auto.
  - intros k kc Hk [Sw _] Cv. destruct (Forall2_in_r _ _ _ _ _ k F3 Hk) as [k0 [Hk0 [_ [_ [Ek [_ [_ Gk]]]]]]].
    destruct (first_match_back cs k0 k kc _ (fun c c' X => proj1 (proj2 (proj2 X))) Gk Sw) as [kc0 [Sw0 _]]. apply (La k0 kc0 Hk0 Sw0). destruct Cv as [p [Cp1 Cp2]]. exists p. rewrite <- Ek. auto.
  - assert (z = a) as ->.
    { destruct (dk_separate _ _ (ds_domain _ _ K1 d' Hd')) as [Nd Sp]. apply (NoDup_map_in _ _ ar_pos (cf_areas c')); auto.
      - apply (Permutation_NoDup (Permutation_sym (proj1 Kc'))). auto.
      - destruct (list_eq_dec Nat.eq_dec (ar_pos z) (ar_pos a)) as [|Ne]; auto. exfalso.
        assert (In (ar_pos z) (dm_elems d')) as Iz by (apply (Permutation_in _ (proj1 Kc')); apply in_map; auto).
        destruct (Sp _ _ Iz Ip Ne) as [U1 U2]. destruct (above_both (ar_pos z) (ar_pos a) q Zb Ab); auto. }
    intros i Hi. symmetry. apply Zr. auto.
Qed.

(** ** What the back synchronisation writes *)

Lemma owns_inside : forall root o eo q e i, elem_wf root = true -> elem_at root o = Some eo -> (forall t, e_kind eo <> KdBit t) -> param_at root q e -> above o q -> owns root q i ->
  offset root o <= i / 8 /\ i / 8 < offset root o + footprint eo.
Proof.
  intros root o eo q e i W Eo Nb Hq Ab Ho. pose proof (owns_param_range root q e i W Hq Ho) as R.
  destruct (storage_above root o q eo e W Ab Eo (proj1 Hq)) as [S1 S2].
  assert (storage_size eo = footprint eo) as S3 by (unfold storage_size; destruct (e_kind eo) eqn:K; auto; exfalso; eapply Nb; eauto).
  pose proof (Nat.div_mod i 8). pose proof (Nat.mod_upper_bound i 8). lia.
Qed.

Lemma back_writes : forall y answer o eo x q e bytes b1 b2, system_ok y -> own_apart y -> answers_ok y answer -> sy_own y o = Some x -> elem_at (sy_root y) o = Some eo ->
  (forall t, e_kind eo <> KdBit t) -> above o q -> param_at (sy_root y) q e -> answer x = Some bytes -> List.length b1 = footprint (sy_root y) ->
  back_one y answer x b1 = Ok b2 -> same_setting (sy_root y) q 0 b2 (offset (sy_root y) o) bytes.
Proof.
  intros y answer o eo x q e bytes b1 b2 Sy Oa Ao O Eo Nb Ab Hq An L H i Hi. destruct (find_owner y o x Oa O ltac:(congruence)) as [t F]. unfold back_one in H. rewrite F, Eo, An in H.
  rewrite (Ao o eo x bytes O Eo An), Nat.eqb_refl in H. unfold bb_write_bytes, bb_access_ok, bb_size in H.
  destruct (Nat.leb_spec (offset (sy_root y) o + List.length bytes) (List.length b1)) as [H0|]; [|discriminate]. inversion H; subst b2.
  rewrite Nat.mul_0_r, Nat.sub_0_r. rewrite mbit_overwrite by auto. destruct (owns_inside _ o eo q e i (proj1 (proj1 Sy)) Eo Nb Hq Ab Hi) as [I1 I2]. rewrite (Ao o eo x bytes O Eo An).
  assert (8 * (i / 8) <= i < 8 * (i / 8) + 8) as D by (pose proof (Nat.div_mod i 8); pose proof (Nat.mod_upper_bound i 8); lia).
  replace (8 * offset (sy_root y) o <=? i) with true by (symmetry; apply Nat.leb_le; lia). replace (i <? 8 * (offset (sy_root y) o + footprint eo)) with true by (symmetry; apply Nat.ltb_lt; lia). auto.
Qed.

Lemma sim_frame : forall y p bb bb' e0 q e i, system_ok y -> elem_at (sy_root y) p = Some e0 -> List.length bb = footprint (sy_root y) -> param_at (sy_root y) q e ->
  ~ above p q -> owns (sy_root y) q i -> set_defaults e0 (offset (sy_root y) p) 0 bb = Ok bb' -> mbit bb' i = mbit bb i.
Proof.
  intros y p bb bb' e0 q e i Sy E L Hq N Ho H. destruct (defaults_at (sy_root y) p e0 bb (proj1 (proj1 Sy)) E L) as [b [B1 [_ [B2 _]]]]. rewrite H in B1. inversion B1; subst b.
  apply mbit_same_byte. apply B2. apply (bytes_elsewhere (sy_root y) p e0 q e i); auto. destruct Sy as [[W Fa] _]. split; auto.
Qed.

Definition sim_one (y : system) (p : list nat) (bb : blackboard) : outcome blackboard :=
  match elem_at (sy_root y) p with Some e => set_defaults e (offset (sy_root y) p) 0 bb | None => Ok bb end.

Lemma sim_ok : forall y ps bb, elem_wf (sy_root y) = true -> List.length bb = footprint (sy_root y) ->
  exists bb', ofold (sim_one y) ps bb = Ok bb' /\ List.length bb' = footprint (sy_root y).
Proof.
  intros y ps. induction ps as [|p ps IH]; intros bb W L; simpl; [eauto|]. unfold sim_one at 1. destruct (elem_at (sy_root y) p) as [e|] eqn:E; [|simpl; auto].
  destruct (defaults_at (sy_root y) p e bb W E L) as [b [-> [B2 _]]]. simpl. apply IH; auto. lia.
Qed.

Lemma sim_bits : forall y ps bb bb' q e, system_ok y -> List.length bb = footprint (sy_root y) -> param_at (sy_root y) q e -> NoDup ps ->
  (forall p p', In p ps -> In p' ps -> above p p' -> p = p') -> ofold (sim_one y) ps bb = Ok bb' ->
  ((forall p, In p ps -> ~ above p q) -> same_setting (sy_root y) q 0 bb' 0 bb)
  /\ (forall p e0, In p ps -> above p q -> elem_at (sy_root y) p = Some e0 -> exists b1 b2, List.length b1 = footprint (sy_root y)
        /\ set_defaults e0 (offset (sy_root y) p) 0 b1 = Ok b2 /\ same_setting (sy_root y) q 0 bb' 0 b2).
Proof.
  intros y ps. induction ps as [|p ps IH]; intros bb bb' q e Sy L Hq Nd Ap H; simpl in H.
  - inversion H; subst. split; [intros _ i _; auto|intros p e0 []].
  - inversion Nd as [|p0 ps0 Np Nd']; subst. unfold sim_one at 1 in H. destruct (elem_at (sy_root y) p) as [e1|] eqn:E.
    + destruct (defaults_at (sy_root y) p e1 bb (proj1 (proj1 Sy)) E L) as [b [B1 [B2 _]]]. rewrite B1 in H. simpl in H.
      destruct (IH b bb' q e Sy ltac:(lia) Hq Nd' ltac:(intros; apply Ap; simpl; auto) H) as [I1 I2]. split.
      * intros N i Hi. rewrite (I1 ltac:(intros; apply N; simpl; auto) i Hi), !Nat.mul_0_r, !Nat.sub_0_r.
        apply (sim_frame y p bb b e1 q e i); auto. apply N. simpl; auto.
      * intros p1 e0 [<-|Hp] Ab E0; [|apply (I2 p1 e0); auto]. rewrite E in E0. inversion E0; subst e1. exists bb, b. split; auto. split; auto. apply I1.
        intros p2 Hp2 Ab2. destruct (above_both p p2 q Ab Ab2) as [C|C].
        -- rewrite (Ap p p2) in Np; simpl; auto.
        -- rewrite <- (Ap p2 p) in Np; simpl; auto.
    + simpl in H. destruct (IH bb bb' q e Sy L Hq Nd' ltac:(intros; apply Ap; simpl; auto) H) as [I1 I2]. split; [intros N; apply I1; intros; apply N; simpl; auto|].
      intros p1 e0 [<-|Hp] Ab E0; [congruence|]. apply (I2 p1 e0); auto.
Qed.

Lemma back_elements_apart : forall y cs s, NoDup (back_sync_elements cs s (sy_root y) [])
  /\ forall p p', In p (back_sync_elements cs s (sy_root y) []) -> In p' (back_sync_elements cs s (sy_root y) []) -> above p p' -> p = p'.
Proof.
  intros y cs s. split; [apply (aggregate_spec (no_valid_domain cs s) (sy_root y) [])|]. intros p p' H H' A. rewrite back_elements_spec in H, H'.
  apply (gathered_apart _ _ _ _ _ H H' A).
Qed.
