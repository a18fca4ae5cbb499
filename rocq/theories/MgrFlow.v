(** Where the settings come from: every setting, live or recorded, is a copy of an earlier one, but for the parameters written
    by name. *)
From Coq Require Import List Arith ZArith Bool Lia Permutation Sorted.
From Verif Require Import Base BaseProofs TextModel TextProofs ParamTypeModel BlackboardModel BlackboardProofs BitModel BitSpec BitProofs ArrayModel
  ArraySpec ArrayProofs TreeModel TreeSpec TreeProofs CriterionModel RuleModel RuleProofs SyncModel DomainModel MemSpec MemProofs DomainSpec SyncProofs
  AreaProofs DomainProofs DomainInv DomainApply DomainsInv MgrModel MgrSpec MgrProofs.
Import ListNotations.
Local Open Scope nat_scope.

(** ** Writes, bit by bit *)

Lemma bits_out_bytes : forall root p e base bb bb' i, elem_wf root = true -> elem_at root p = Some e -> base <= offset root p ->
  (forall k, k < offset root p - base \/ offset root p - base + storage_size e <= k -> nth_error bb' k = nth_error bb k) ->
  8 * base <= i -> i < 8 * offset root p \/ 8 * (offset root p + storage_size e) <= i -> bits_at base bb' i = bits_at base bb i.
Proof.
  intros root p e base bb bb' i W E B F Hi H. unfold bits_at. apply mbit_same_byte. apply F.
  destruct H as [H|H].
  - left. apply div8_lt. lia.
  - right. destruct (Nat.lt_ge_cases ((i - 8 * base) / 8) (offset root p - base + storage_size e)) as [C|C]; auto. apply div8_lt in C. lia.
Qed.

Lemma not_owned_bit : forall root p e base bb bb' i t, elem_wf root = true -> param_at root p e -> base <= offset root p ->
  e_kind e = KdBit t -> bit_wf t = true -> offset root p - base + bt_block t <= List.length bb ->
  (exists v, bit_effect t v (offset root p - base) bb bb') ->
  8 * base <= i -> ~ owns root p i -> bits_at base bb' i = bits_at base bb i.
Proof.
  intros root p e base bb bb' i t W [E P] B K Wt L [v [E1 [E2 [w [w' [R [R' H]]]]]]] Hi N.
  assert (storage_size e = bt_block t) as Es by (unfold storage_size; rewrite K; auto).
  destruct (Nat.lt_ge_cases i (8 * offset root p)) as [C|C].
  { apply (bits_out_bytes root p e base bb bb' i); auto. rewrite Es. auto. }
  destruct (Nat.lt_ge_cases i (8 * (offset root p + storage_size e))) as [C2|C2].
  2:{ apply (bits_out_bytes root p e base bb bb' i); auto. rewrite Es. auto. }
  rewrite read_int_fits in R by auto. rewrite read_int_fits in R' by (rewrite E1; auto). inversion R as [R1]. inversion R' as [R1'].
  set (j := i - 8 * offset root p). assert (j < 8 * bt_block t) as Hj by (unfold j; lia).
  specialize (H (Z.of_nat j) ltac:(lia)).
  rewrite <- R1, <- R1', !mbit_testbit, !mbit_slice in H. destruct (Nat.ltb_spec j (8 * bt_block t)); [|lia].
  unfold bits_at. replace (i - 8 * base) with (8 * (offset root p - base) + j) by (unfold j; lia). rewrite H.
  destruct ((bt_pos t <=? Z.of_nat j) && (Z.of_nat j <? bt_pos t + bt_size t))%Z eqn:X; auto.
  exfalso. apply N. exists e. split; auto. split; auto. rewrite (field_bit_bit e t); auto.
Qed.

Lemma owned_bytes : forall root p e i, elem_at root p = Some e -> (forall t, e_kind e <> KdBit t) ->
  8 * offset root p <= i < 8 * (offset root p + storage_size e) -> owns root p i.
Proof.
  intros root p e i E K H. exists e. split; auto. split; [lia|]. unfold field_bit, storage_size in *.
  destruct (e_kind e); try (apply Nat.ltb_lt; lia). destruct (K t); auto.
Qed.

(** A change of the bytes of a parameter that is not a bit parameter. *)
Lemma bits_of_bytes : forall root p e base bb bb', elem_wf root = true -> elem_at root p = Some e -> base <= offset root p ->
  (forall t, e_kind e <> KdBit t) ->
  (forall k, k < offset root p - base \/ offset root p - base + storage_size e <= k -> nth_error bb' k = nth_error bb k) ->
  forall i, 8 * base <= i -> ~ owns root p i -> bits_at base bb' i = bits_at base bb i.
Proof.
  intros root p e base bb bb' W E B K F i Hi N. apply (bits_out_bytes root p e); auto.
  destruct (Nat.lt_ge_cases i (8 * offset root p)); auto. right.
  destruct (Nat.lt_ge_cases i (8 * (offset root p + storage_size e))) as [C|C]; auto. exfalso. apply N. apply (owned_bytes root p e); auto.
Qed.

Lemma leaf_set_bits : forall root p e f rest s base bb ok bb', elem_wf root = true -> param_at root p e -> base <= offset root p ->
  offset root p - base + storage_size e <= List.length bb ->
  leaf_set (e_kind e) f rest s (offset root p) base bb = Ok (ok, bb') ->
  List.length bb' = List.length bb /\ forall i, 8 * base <= i -> ~ owns root p i -> bits_at base bb' i = bits_at base bb i.
Proof.
  intros root p e f rest s base bb ok bb' W P B L H. rewrite leaf_set_base in H. pose proof (param_kind_wf root p e W P) as Wk.
  rewrite (storage_size_kind e (proj2 P)) in L.
  destruct (leaf_set_frame (e_kind e) f rest s (offset root p - base) bb Wk L) as [ok2 [b2 [H1 [H2 [H3 _]]]]].
  rewrite H in H1. inversion H1; subst ok2 b2. split; auto. rewrite <- (storage_size_kind e (proj2 P)) in H3.
  destruct (e_kind e) eqn:K; try contradiction; try (apply (bits_of_bytes root p e); auto; [apply P|congruence]).
  intros i Hi N. cbn [leaf_set] in H. destruct rest; [|inversion H; auto]. rewrite ?Nat.sub_0_r in H.
  destruct (bitparam_set_str_cases t s (offset root p - base) bb Wk L) as [E|[b2 E]]; rewrite E in H; inversion H; subst; auto.
  destruct (bit_set_any_text t s (offset root p - base) bb bb' Wk L E) as [v [_ [X _]]].
  apply (not_owned_bit root p e base bb bb' i t); eauto.
Qed.

Lemma handle_write_bits : forall root p e v base bb ok bb', elem_wf root = true -> param_at root p e -> base <= offset root p ->
  offset root p - base + storage_size e <= List.length bb -> hval_ok v -> (hval_size v <> 0 -> hval_size v = array_length (e_kind e)) ->
  handle_write (e_kind e) v (offset root p - base) bb = Ok (ok, bb') ->
  List.length bb' = List.length bb /\ forall i, 8 * base <= i -> ~ owns root p i -> bits_at base bb' i = bits_at base bb i.
Proof.
  intros root p e v base bb ok bb' W P B L Hv Hl H. pose proof (param_kind_wf root p e W P) as Wk. rewrite (storage_size_kind e (proj2 P)) in L.
  destruct (handle_write_frame (e_kind e) v (offset root p - base) bb Wk L Hl) as [ok2 [b2 [H1 [H2 [H3 _]]]]].
  rewrite H in H1. inversion H1; subst ok2 b2. split; auto. rewrite <- (storage_size_kind e (proj2 P)) in H3.
  destruct (e_kind e) eqn:K; try contradiction; try (apply (bits_of_bytes root p e); auto; [apply P|congruence]).
  intros i Hi N. cbn [handle_write] in H. destruct v as [u|s|us|ss]; try (inversion H; subst; auto; fail).
  - destruct (bitparam_val_cases t u (offset root p - base) bb Wk L) as [E|[b2 [E _]]]; rewrite E in H; inversion H; subst; auto.
    assert (exists z, bit_effect t z (offset root p - base) bb bb') as X.
    { destruct u as [b|n|n|d]; try discriminate.
      - destruct (bit_bool_handle t b (offset root p - base) bb Wk L) as [Y1 Y2]. cbn [size_of_kind] in L.
        destruct (Z.eq_dec (bt_size t) 1) as [S1|S1]; [|destruct (Y2 S1) as [Y _]; congruence].
        destruct (Z.le_gt_cases (if b then 1 else 0) (bt_max t))%Z as [M|M].
        + destruct (Y1 S1 M) as [b2 [F1 [F2 _]]]. rewrite E in F1. inversion F1; subst. eauto.
        + exfalso. unfold bitparam_set_val in E. rewrite S1 in E. cbn [Z.eqb] in E. rewrite bb_read_int_fits in E by auto. cbn [obind] in E.
          unfold bit_to_bb in E. destruct (Z.gtb_spec (if b then 1 else 0) (bt_max t)); [discriminate|lia].
      - destruct (bit_handle t n (offset root p - base) bb Wk L Hv) as [Y1 Y2].
        destruct (Z.le_gt_cases n (bt_max t)) as [M|M]; [|rewrite (Y2 M) in E; discriminate].
        destruct (Y1 M) as [b2 [F1 [F2 _]]]. rewrite E in F1. inversion F1; subst. eauto. }
    apply (not_owned_bit root p e base bb bb' i t); auto.
  - destruct (bitparam_set_str_cases t s (offset root p - base) bb Wk L) as [E|[b2 E]]; rewrite E in H; inversion H; subst; auto.
    destruct (bit_set_any_text t s (offset root p - base) bb bb' Wk L E) as [v [_ [X _]]].
    apply (not_owned_bit root p e base bb bb' i t); eauto.
Qed.

(** ** Copies *)

(** [f] is, on the bits of [q], a copy of the live setting or of a setting recorded in the areas [l]. *)
Definition copied (root : elem) (q : pos) (main : blackboard) (l : list area) (f : nat -> bool) : Prop :=
  (forall i, owns root q i -> f i = mbit main i)
  \/ exists a, In a l /\ above (ar_pos a) q /\ forall i, owns root q i -> f i = area_bits root a i.

(** Every setting of [q] in the areas [l'] is a copy. *)
Definition flow (root : elem) (q : pos) (main : blackboard) (l l' : list area) : Prop :=
  forall a, In a l' -> above (ar_pos a) q -> copied root q main l (area_bits root a).

Definition dm_areas (d : domain) : list area := flat_map cf_areas (dm_configs d).
Definition ds_areas (s : domains) : list area := flat_map dm_areas (ds_list s).

Lemma flow_incl : forall root q main l l', incl l' l -> flow root q main l l'.
Proof. intros root q main l l' H a Ha A. right. exists a. split; auto. Qed.

Lemma flow_more : forall root q main l1 l2 l', incl l1 l2 -> flow root q main l1 l' -> flow root q main l2 l'.
Proof.
  intros root q main l1 l2 l' H F a Ha A. destruct (F a Ha A) as [X|[b [X1 X2]]]; [left; auto|]. right. exists b. split; auto.
Qed.

Lemma flow_app : forall root q main l l1 l2, flow root q main l l1 -> flow root q main l l2 -> flow root q main l (l1 ++ l2).
Proof. intros root q main l l1 l2 H1 H2 a Ha. apply in_app_or in Ha. destruct Ha; auto. Qed.

Lemma flow_forall2 : forall root q main l l', Forall2 (fun c c' => flow root q main (cf_areas c) (cf_areas c')) l l' ->
  flow root q main (flat_map cf_areas l) (flat_map cf_areas l').
Proof.
  intros root q main l l' H. induction H; simpl; [intros a []|]. apply flow_app.
  - apply (flow_more _ _ _ (cf_areas x)); auto. apply incl_appl. apply incl_refl.
  - eapply flow_more; [|exact IHForall2]. apply incl_appr. apply incl_refl.
Qed.

Lemma flow_replace : forall A (g : A -> list area) root q main l1 x l2 x', flow root q main (g x) (g x') ->
  flow root q main (flat_map g (l1 ++ x :: l2)) (flat_map g (l1 ++ x' :: l2)).
Proof.
  intros A g root q main l1 x l2 x' H. rewrite !flat_map_app. simpl. apply flow_app; [|apply flow_app].
  - apply flow_incl. apply incl_appl. apply incl_refl.
  - eapply flow_more; [|exact H]. apply incl_appr, incl_appl, incl_refl.
  - apply flow_incl. apply incl_appr, incl_appr, incl_refl.
Qed.

(** [above], decided. *)
Definition above_b (p q : pos) : bool := pos_eqb p q || descendant_of q p.
Lemma above_b_spec : forall p q, above_b p q = true <-> above p q.
Proof.
  intros p q. unfold above_b. rewrite orb_true_iff, pos_eqb_eq, descendant_spec. split.
  - intros [->|[H _]]; auto. apply above_refl.
  - intros H. destruct (list_eq_dec Nat.eq_dec p q); auto.
Qed.

Section Flow.
Variable y : system.
Hypothesis Hs : structure_ok y.
Variable q : list nat.
Variable e : elem.
Hypothesis Hq : param_at (sy_root y) q e.

Local Notation root := (sy_root y).

(** No element below a parameter. *)
Lemma param_below : forall p, above q p -> elem_at root p <> None -> p = q.
Proof.
  intros p [r ->] H. destruct r as [|i r]; [apply app_nil_r|]. exfalso. apply H. rewrite elem_at_app, (proj1 Hq). cbn [elem_at].
  assert (e_children e = []) as E.
  { destruct (elem_wf_at q root e (proj1 Hs) (proj1 Hq)) as [X|[t [nm [-> _]]]]; auto. apply param_no_children; auto. apply Hq. }
  destruct e as [nm k cs]. simpl in E. subst cs. destruct i; auto.
Qed.

Lemma flow_added : forall l p m c c', config_ok root l c -> added y p (Some m) c c' -> flow root q m (cf_areas c) (cf_areas c').
Proof.
  intros l p m c c' [_ Ka] [_ [_ [_ [o [E1 [E2 [E3 [_ [E5 E6]]]]]]]]]. rewrite E1. apply flow_app.
  - apply flow_incl. intros a Ha. apply filter_In in Ha. tauto.
  - intros a [<-|[]] A. rewrite E2 in A.
    destruct (find (fun a => descendant_of (ar_pos a) p && above_b (ar_pos a) q) (cf_areas c)) as [a|] eqn:F.
    + apply find_some in F. destruct F as [F1 F2]. apply andb_true_iff in F2. destruct F2 as [F2 F3]. apply above_b_spec in F3.
      right. exists a. split; auto. split; auto. intros i Hi. apply E5; auto. apply (owns_above root (ar_pos a) q); auto; [apply Hs|].
      rewrite Forall_forall in Ka. destruct (Ka a F1) as [x [X _]]. eauto.
    + left. intros i Hi. apply E6; auto.
      * apply (owns_above root p q); auto; [apply Hs|]. destruct E3 as [x [X _]]. rewrite E2 in X. eauto.
      * intros a Ha D Ho. apply (find_none _ _ F) in Ha as Hn. rewrite D in Hn. cbn [andb] in Hn.
        apply (owns_apart root (ar_pos a) q i (proj1 Hs) (proj2 Hs)); auto. split.
        -- intros C. apply above_b_spec in C. congruence.
        -- intros C. rewrite Forall_forall in Ka. destruct (Ka a Ha) as [x [X _]]. rewrite (param_below _ C) in Hn by congruence.
           assert (above_b q q = true) by (apply above_b_spec, above_refl). congruence.
Qed.

Lemma flow_splitted : forall p ps m c c', (forall x, In x ps -> above p x) -> splitted y p ps c c' -> flow root q m (cf_areas c) (cf_areas c').
Proof.
  intros p ps m c c' Hp [_ [_ [_ [o [news [E1 [E2 [E3 [E4 [E5 [_ E6]]]]]]]]]]]. rewrite E3. apply flow_app.
  - apply flow_incl. intros a Ha. apply filter_In in Ha. tauto.
  - intros a Ha A. right. exists o. split; auto. split.
    + rewrite E2. apply (above_trans p (ar_pos a)); auto. apply Hp. rewrite <- E4. apply in_map. auto.
    + intros i Hi. apply E6; auto. apply (owns_above root (ar_pos a) q); auto; [apply Hs|]. rewrite Forall_forall in E5.
      destruct (E5 a Ha) as [x [X _]]. eauto.
Qed.

Lemma flow_saved : forall m c c', saved y m c c' -> flow root q m (cf_areas c) (cf_areas c').
Proof.
  intros m c c' [_ [_ [_ F]]] a' Ha A. left. intros i Hi. destruct (Forall2_in_r _ _ _ _ _ a' F Ha) as [a [Ia [E1 [[x [X _]] [_ E3]]]]].
  apply E3. rewrite E1 in A, X. apply (owns_above root (ar_pos a) q); eauto. apply Hs.
Qed.

Lemma flow_on_config : forall n (f : config -> outcome (bool * config)) m d b d', dm_on_config n f d = Ok (b, d') ->
  (forall c b c', In c (dm_configs d) -> f c = Ok (b, c') -> flow root q m (cf_areas c) (cf_areas c')) -> flow root q m (dm_areas d) (dm_areas d').
Proof.
  intros n f m d b d' H Hf. destruct (dm_on_config_cases _ _ _ _ _ H) as [[_ [_ ->]]|[l1 [c [l2 [c' [E1 [E2 [E3 [E4 ->]]]]]]]]].
  - apply flow_incl, incl_refl.
  - unfold dm_areas. cbn [dm_configs with_configs]. rewrite E2. apply flow_replace. apply (Hf c b c'); auto. rewrite E2. apply in_or_app. simpl. auto.
Qed.

Lemma flow_on : forall n f m s b s', ds_on n f s = Ok (b, s') ->
  (forall d b d', In d (ds_list s) -> f d = Ok (b, d') -> flow root q m (dm_areas d) (dm_areas d')) -> flow root q m (ds_areas s) (ds_areas s').
Proof.
  intros n f m s b s' H Hf. destruct (ds_on_cases _ _ _ _ _ H) as [[_ [_ ->]]|[l1 [d [l2 [d' [E1 [E2 [E3 [E4 ->]]]]]]]]].
  - apply flow_incl, incl_refl.
  - unfold ds_areas. cbn [ds_list]. rewrite E2. apply flow_replace. apply (Hf d b d'); auto. rewrite E2. apply in_or_app. simpl. auto.
Qed.

Lemma flow_on_att : forall n f m s b s', ds_on_att n f s = Ok (b, s') ->
  (forall d b d' at', In d (ds_list s) -> f d (ds_att s) = Ok (b, (d', at')) -> flow root q m (dm_areas d) (dm_areas d')) ->
  flow root q m (ds_areas s) (ds_areas s').
Proof.
  intros n f m s b s' H Hf. destruct (ds_on_att_cases _ _ _ _ _ H) as [[_ [_ ->]]|[l1 [d [l2 [d' [at' [E1 [E2 [E3 [E4 ->]]]]]]]]]].
  - apply flow_incl, incl_refl.
  - unfold ds_areas. cbn [ds_list]. rewrite E2. apply flow_replace. apply (Hf d b d' at'); auto. rewrite E2. apply in_or_app. simpl. auto.
Qed.

Lemma flow_configs : forall m d d', Forall2 (fun c c' => flow root q m (cf_areas c) (cf_areas c')) (dm_configs d) (dm_configs d') ->
  flow root q m (dm_areas d) (dm_areas d').
Proof. intros m d d' H. apply flow_forall2. auto. Qed.

Lemma Forall2_and_in : forall A B (R S : A -> B -> Prop) l l', Forall2 R l l' -> (forall a b, In a l -> R a b -> S a b) -> Forall2 S l l'.
Proof.
  intros A B R S l l' H. induction H; intros G; constructor.
  - apply G; simpl; auto.
  - apply IHForall2. intros. apply G; simpl; auto.
Qed.

Lemma flow_add : forall n p m s b s', one_syncer y -> elem_at root p <> None -> List.length m = footprint root -> domains_ok y s ->
  ds_add y n p m s = Ok (b, s') -> flow root q m (ds_areas s) (ds_areas s').
Proof.
  intros n p m s b s' O Hp Lm K H. apply (flow_on_att _ _ m s b s' H). intros d b0 d' at' Hd E.
  pose proof (ds_domain _ _ K d Hd) as Kd.
  destruct (dm_add_ok y p (Some m) d (ds_att s) Hs O Hp) as [b1 [d1 [at1 [E1 [_ [A1 A2]]]]]]; auto.
  { intros m0 H0. inversion H0; subst; auto. } { apply (ds_link y s d K Hd). } { apply (ds_att_once _ _ K). }
  rewrite E in E1. inversion E1; subst b1 d1 at1. destruct b0.
  - destruct (A2 eq_refl) as [_ [_ [_ [_ [_ [_ [F _]]]]]]]. apply flow_configs. apply (Forall2_and_in _ _ _ _ _ _ F).
    intros c c' Ic Fc. apply (flow_added (dm_elems d) p m c c'); auto. apply (dk_configs _ _ Kd c Ic).
  - destruct (A1 eq_refl) as [-> _]. apply flow_incl, incl_refl.
Qed.

Lemma flow_remove : forall n p m s b s', domains_ok y s -> ds_remove y n p s = Ok (b, s') -> flow root q m (ds_areas s) (ds_areas s').
Proof.
  intros n p m s b s' K H. apply (flow_on_att _ _ m s b s' H). intros d b0 d' at' Hd E. pose proof (ds_domain _ _ K d Hd) as Kd.
  destruct (dm_remove_ok y p d (ds_att s)) as [b1 [d1 [at1 [E1 [_ [A1 A2]]]]]]; auto. { apply (ds_link y s d K Hd). } { apply (ds_att_once _ _ K). }
  rewrite E in E1. inversion E1; subst b1 d1 at1. destruct b0.
  - destruct (A2 eq_refl) as [_ [_ [_ [_ [_ [_ [F _]]]]]]]. apply flow_configs. apply (Forall2_and_in _ _ _ _ _ _ F).
    intros c c' Ic Fc. unfold removed in Fc. subst c'. apply flow_incl. intros a Ha. cbn [cf_areas with_areas] in Ha. apply filter_In in Ha. tauto.
  - destruct (A1 eq_refl) as [-> _]. apply flow_incl, incl_refl.
Qed.

Lemma flow_split : forall n p m s b s', one_syncer y -> domains_ok y s -> ds_split y n p s = Ok (b, s') -> flow root q m (ds_areas s) (ds_areas s').
Proof.
  intros n p m s b s' O K H. apply (flow_on_att _ _ m s b s' H). intros d b0 d' at' Hd E. pose proof (ds_domain _ _ K d Hd) as Kd.
  destruct (dm_split_ok y p d (ds_att s) Hs O Kd) as [b1 [d1 [at1 [E1 [_ [A1 A2]]]]]]; auto. { apply (ds_link y s d K Hd). } { apply (ds_att_once _ _ K). }
  rewrite E1 in E. cbn [obind snd] in E. inversion E; subst d1 at1. destruct b1.
  - destruct (A2 eq_refl) as [_ [_ [_ [_ [_ [x [_ [_ [F _]]]]]]]]]. apply flow_configs. apply (Forall2_and_in _ _ _ _ _ _ F).
    intros c c' Ic Fc. apply (flow_splitted p (children_pos p x) m c c'); auto.
    intros z Hz. apply children_pos_In in Hz. destruct Hz as [i [-> _]]. exists [i]. auto.
  - destruct (A1 eq_refl) as [-> _]. apply flow_incl, incl_refl.
Qed.

Lemma flow_create_config : forall n c m s b s', List.length m = footprint root -> domains_ok y s ->
  ds_create_config y n c m s = Ok (b, s') -> flow root q m (ds_areas s) (ds_areas s').
Proof.
  intros n c m s b s' Lm K H. apply (flow_on _ _ m s b s' H). intros d b0 d' Hd E. pose proof (ds_domain _ _ K d Hd) as Kd.
  destruct (dm_create_config_ok y c m d Hs Lm Kd) as [b1 [d1 [E1 [_ [A1 A2]]]]]. rewrite E in E1. inversion E1; subst b1 d1. destruct b0.
  - destruct (A2 eq_refl) as [Kd' [_ [_ [_ [_ [k [B1 [_ [_ [_ [B2 B3]]]]]]]]]]]. unfold dm_areas. rewrite B1, flat_map_app. apply flow_app; [apply flow_incl, incl_refl|].
    cbn [flat_map]. rewrite app_nil_r. intros a Ha A.
    assert (exists x, elem_at root (ar_pos a) = Some x) as Ex.
    { apply (dk_exist _ _ Kd). rewrite <- B2. apply in_map. auto. }
    destruct (dm_configs d) as [|g r].
    + left. intros i Hi. apply B3; auto. apply (owns_above root (ar_pos a) q); auto. apply Hs.
    + right. destruct (B3 a Ha) as [g1 [G1 [G2 G3]]]. exists g1. split; [cbn [flat_map]; apply in_or_app; auto|]. split; [congruence|].
      intros i Hi. unfold area_bits. congruence.
  - rewrite (A1 eq_refl). apply flow_incl, incl_refl.
Qed.

Lemma flow_delete_config : forall n c m s b s', ds_delete_config n c s = Ok (b, s') -> flow root q m (ds_areas s) (ds_areas s').
Proof.
  intros n c m s b s' H. apply (flow_on _ _ m s b s' H). intros d b0 d' Hd E. inversion E as [E1]. unfold dm_delete_config in E1.
  destruct (dm_find c d) as [k|] eqn:F; [|inversion E1; subst; apply flow_incl, incl_refl].
  destruct (dm_find_split c d k F) as [l1 [l2 [F1 [F2 F3]]]]. inversion E1; subst. apply flow_incl.
  unfold dm_areas. intros a Ha. apply in_flat_map in Ha. destruct Ha as [x [X1 X2]]. apply in_flat_map. exists x. split; auto.
  destruct (is_last d k); cbn [dm_configs with_configs with_last] in X1; rewrite F1, drop_config_split in X1 by auto;
    rewrite F1; apply in_app_or in X1; apply in_or_app; simpl; tauto.
Qed.

Lemma flow_rename_config : forall n c k m s b s', ds_rename_config n c k s = Ok (b, s') -> flow root q m (ds_areas s) (ds_areas s').
Proof.
  intros n c k m s b s' H. apply (flow_on _ _ m s b s' H). intros d b0 d' Hd E. inversion E as [E1]. unfold dm_rename_config in E1.
  destruct (dm_find c d) as [x|] eqn:F; [|inversion E1; subst; apply flow_incl, incl_refl].
  destruct (existsb _ (dm_configs d)); [inversion E1; subst; apply flow_incl, incl_refl|].
  destruct (dm_find_split c d x F) as [l1 [l2 [F1 [F2 F3]]]]. rewrite F1, upd_config_split in E1 by auto. cbn [obind fst snd] in E1.
  inversion E1; subst. unfold dm_areas. cbn [dm_configs with_configs]. rewrite F1. apply flow_replace. apply flow_incl, incl_refl.
Qed.

Lemma flow_save : forall n c m s b s', List.length m = footprint root -> domains_ok y s -> ds_save y n c m s = Ok (b, s') ->
  flow root q m (ds_areas s) (ds_areas s').
Proof.
  intros n c m s b s' Lm K H. apply (flow_on _ _ m s b s' H). intros d b0 d' Hd E. pose proof (ds_domain _ _ K d Hd) as Kd.
  apply (flow_on_config _ _ m d b0 d' E). intros k b1 k' Hk Ek.
  destruct (cf_save_spec y (dm_elems d) m k Hs (dk_configs _ _ Kd k Hk) Lm) as [k2 [S1 [_ S2]]]. rewrite S1 in Ek. inversion Ek; subst.
  apply flow_saved. auto.
Qed.

Lemma flow_sequence : forall n c paths m s b s', domains_ok y s -> ds_set_sequence y n c paths s = Ok (b, s') -> flow root q m (ds_areas s) (ds_areas s').
Proof.
  intros n c paths m s b s' K H. apply (flow_on _ _ m s b s' H). intros d b0 d' Hd E. pose proof (ds_domain _ _ K d Hd) as Kd.
  apply (flow_on_config _ _ m d b0 d' E). intros k b1 k' Hk Ek. inversion Ek as [E1].
  destruct (cf_set_sequence_ok y (dm_elems d) paths k b1 k' (dk_configs _ _ Kd k Hk) E1) as [_ [_ [_ [_ P]]]].
  apply flow_incl. intros a Ha. apply (Permutation_in _ P). auto.
Qed.

Lemma flow_rule : forall cs n c t m s b s', ds_set_rule cs n c t s = Ok (b, s') -> flow root q m (ds_areas s) (ds_areas s').
Proof.
  intros cs n c t m s b s' H. apply (flow_on _ _ m s b s' H). intros d b0 d' Hd E. apply (flow_on_config _ _ m d b0 d' E).
  intros k b1 k' Hk Ek. destruct (set_application_rule cs t (cf_rule k)) as [[b2 r]| | |]; try discriminate. inversion Ek; subst.
  apply flow_incl, incl_refl.
Qed.

Lemma flow_clear_rule : forall n c m s b s', ds_clear_rule n c s = Ok (b, s') -> flow root q m (ds_areas s) (ds_areas s').
Proof.
  intros n c m s b s' H. apply (flow_on _ _ m s b s' H). intros d b0 d' Hd E. apply (flow_on_config _ _ m d b0 d' E).
  intros k b1 k' Hk Ek. inversion Ek; subst. apply flow_incl, incl_refl.
Qed.

(** Restoring: the live setting is kept or copied from the configuration. *)
Lemma written_copied : forall l c main main', config_ok root l c -> written root c main main' -> copied root q main (cf_areas c) (mbit main').
Proof.
  intros l c main main' [_ Ka] [_ [W1 W2]]. rewrite Forall_forall in Ka.
  destruct (find (fun a => above_b (ar_pos a) q) (cf_areas c)) as [a|] eqn:F.
  - apply find_some in F. destruct F as [F1 F2]. apply above_b_spec in F2. right. exists a. split; auto. split; auto. intros i Hi. apply W1.
    exists a. split; auto. split; auto. apply (owns_above root (ar_pos a) q); auto; [apply Hs|]. destruct (Ka a F1) as [x [X _]]. eauto.
  - left. intros i Hi. apply W2. intros a Ha Ho. apply (find_none _ _ F) in Ha as Hn.
    apply (owns_apart root (ar_pos a) q i (proj1 Hs) (proj2 Hs)); auto. split.
    + intros C. apply above_b_spec in C. congruence.
    + intros C. destruct (Ka a Ha) as [x [X _]]. rewrite (param_below _ C) in Hn by congruence.
      assert (above_b q q = true) by (apply above_b_spec, above_refl). congruence.
Qed.

Lemma copied_more : forall main l1 l2 f, incl l1 l2 -> copied root q main l1 f -> copied root q main l2 f.
Proof. intros main l1 l2 f H [X|[a [X1 X2]]]; [left; auto|right; exists a; split; auto]. Qed.

Lemma copied_trans : forall main main1 l f, copied root q main l (mbit main1) -> copied root q main1 l f -> copied root q main l f.
Proof.
  intros main main1 l f H [X|X]; [|right; auto]. destruct H as [H|[a [H1 [H2 H3]]]].
  - left. intros i Hi. rewrite X by auto. auto.
  - right. exists a. split; auto. split; auto. intros i Hi. rewrite X by auto. auto.
Qed.

Lemma written_all_copied : forall l cl main main', (forall c, In c cl -> exists k, config_ok root k c /\ incl (cf_areas c) l) ->
  written_all root cl main main' -> copied root q main l (mbit main').
Proof.
  intros l cl main main' H W. induction W.
  - left. auto.
  - apply (copied_trans _ m2).
    + destruct (H c) as [k [K1 K2]]; [simpl; auto|]. apply (copied_more _ (cf_areas c)); auto. apply (written_copied k c); auto.
    + apply IHW. intros. apply H. simpl. auto.
Qed.
End Flow.

Lemma in_ds_areas : forall s a, In a (ds_areas s) <-> exists d c, In d (ds_list s) /\ In c (dm_configs d) /\ In a (cf_areas c).
Proof.
  intros s a. unfold ds_areas, dm_areas. rewrite in_flat_map. split.
  - intros [d [Hd Ha]]. apply in_flat_map in Ha. destruct Ha as [c [Hc Ha]]. eauto.
  - intros [d [c [Hd [Hc Ha]]]]. exists d. split; auto. apply in_flat_map. eauto.
Qed.

Lemma everywhere_areas : forall y q S m, everywhere y q S m <->
  S (mbit (mg_main m)) /\ forall a, In a (ds_areas (mg_doms m)) -> above (ar_pos a) q -> S (area_bits (sy_root y) a).
Proof.
  intros y q S m. unfold everywhere. split; intros [H1 H2]; split; auto.
  - intros a Ha. apply in_ds_areas in Ha. destruct Ha as [d [c [Hd [Hc Ha]]]]. eauto.
  - intros d c a Hd Hc Ha. apply H2. apply in_ds_areas. eauto.
Qed.

Lemma everywhere_copied : forall y q S m f, about (sy_root y) q S -> everywhere y q S m ->
  copied (sy_root y) q (mg_main m) (ds_areas (mg_doms m)) f -> S f.
Proof.
  intros y q S m f A E H. apply everywhere_areas in E. destruct E as [E1 E2]. destruct H as [H|[a [H1 [H2 H3]]]].
  - apply (A (mbit (mg_main m))); auto. intros i Hi. symmetry. auto.
  - apply (A (area_bits (sy_root y) a)); auto. intros i Hi. symmetry. auto.
Qed.

Lemma everywhere_flow : forall y q S m m', about (sy_root y) q S -> everywhere y q S m ->
  copied (sy_root y) q (mg_main m) (ds_areas (mg_doms m)) (mbit (mg_main m')) ->
  flow (sy_root y) q (mg_main m) (ds_areas (mg_doms m)) (ds_areas (mg_doms m')) -> everywhere y q S m'.
Proof.
  intros y q S m m' A E H1 H2. apply everywhere_areas. split.
  - apply (everywhere_copied y q S m); auto.
  - intros a Ha Ab. apply (everywhere_copied y q S m); auto.
Qed.

Lemma everywhere_doms : forall y q S m s, about (sy_root y) q S -> everywhere y q S m ->
  flow (sy_root y) q (mg_main m) (ds_areas (mg_doms m)) (ds_areas s) -> everywhere y q S (with_doms m s).
Proof. intros y q S m s A E H. apply (everywhere_flow y q S m); auto. left. auto. Qed.

Lemma everywhere_main : forall y q S m m', everywhere y q S m -> mg_doms m' = mg_doms m -> S (mbit (mg_main m')) -> everywhere y q S m'.
Proof. intros y q S m m' [_ E2] H1 H2. split; auto. rewrite H1. auto. Qed.

(** The accesses above, on the whole main memory. *)
Lemma bits_main : forall root q S bb, about root q S -> (S (bits_at 0 bb) <-> S (mbit bb)).
Proof.
  intros root q S bb A. split; apply A; intros i _; unfold bits_at; rewrite Nat.sub_0_r; auto.
Qed.

Lemma set_live_everywhere : forall y path s m b m' q e S, structure_ok y -> List.length (mg_main m) = footprint (sy_root y) ->
  param_at (sy_root y) q e -> about (sy_root y) q S -> set_live y path s m = Ok (b, m') ->
  ((exists rest, param_of (sy_root y) path = Some (q, rest)) -> stable y q e S) -> everywhere y q S m -> everywhere y q S m'.
Proof.
  intros y path s m b m' q e S [W Fa] L Hq A H St E. unfold set_live in H.
  destruct (param_of (sy_root y) path) as [[p rest]|] eqn:Ep; [|inversion H; subst; auto].
  destruct (param_of_sound _ _ _ _ Ep) as [x Px].
  unfold write_main in H. destruct (access_set (sy_root y) (mg_fmt m) path s 0 (mg_main m)) as [[ok bb]| | |] eqn:Ea; try discriminate.
  cbn [obind fst snd] in H.
  assert (mg_doms m' = mg_doms m /\ mg_main m' = bb) as [D1 D2].
  { destruct ok; [destruct (sync_param _ _ _ _ _)|]; inversion H; auto. }
  apply (everywhere_main y q S m); auto. rewrite D2. unfold access_set in Ea. rewrite Ep, (proj1 Px) in Ea.
  pose proof (param_storage_fits _ _ _ W Px) as Fit. rewrite <- (storage_size_kind x (proj2 Px)) in Fit.
  destruct (list_eq_dec Nat.eq_dec p q) as [->|N].
  - assert (x = e) by (destruct Px, Hq; congruence). subst x. apply (bits_main (sy_root y) q); auto.
    apply (St ltac:(eauto) 0 (mg_main m) ok bb); try lia; eauto. apply (bits_main (sy_root y) q); auto. apply E.
  - destruct (leaf_set_bits (sy_root y) p x (mg_fmt m) rest s 0 (mg_main m) ok bb W Px) as [_ B]; auto; try lia.
    apply (A (mbit (mg_main m))); [|apply E]. intros i Hi.
    specialize (B i ltac:(lia)). unfold bits_at in B. rewrite Nat.sub_0_r in B. symmetry. apply B. intros Ho.
    apply (owns_apart (sy_root y) p q i W Fa); auto. apply (params_unrelated (sy_root y) p q x e); auto.
Qed.

Lemma handle_set_everywhere : forall y p v m b m' q e S, structure_ok y -> List.length (mg_main m) = footprint (sy_root y) ->
  param_at (sy_root y) q e -> about (sy_root y) q S -> hval_ok v -> handle_set y p v m = Ok (b, m') ->
  (p = q -> stable y q e S) -> everywhere y q S m -> everywhere y q S m'.
Proof.
  intros y p v m b m' q e S [W Fa] L Hq A Hv H St E. unfold handle_set in H. destruct (elem_at (sy_root y) p) as [x|] eqn:Ex; [|inversion H; subst; auto].
  destruct (check_set x p (hval_size v) (ds_att (mg_doms m))) eqn:C; [|inversion H; subst; auto]. destruct (mg_tuning m); [inversion H; subst; auto|].
  apply check_set_spec in C. destruct C as [C1 [_ [C2 _]]]. assert (param_at (sy_root y) p x) as Px by (split; auto).
  unfold handle_commit in H. rewrite Ex in H. unfold write_main in H.
  destruct (handle_write (e_kind x) v (offset (sy_root y) p) (mg_main m)) as [[ok bb]| | |] eqn:Ea; try discriminate. cbn [obind fst snd] in H.
  assert (mg_doms m' = mg_doms m /\ mg_main m' = bb) as [D1 D2].
  { destruct ok; [destruct (sync_param _ _ _ _ _)|]; inversion H; auto. }
  apply (everywhere_main y q S m); auto. rewrite D2.
  pose proof (param_storage_fits _ _ _ W Px) as Fit. rewrite <- (storage_size_kind x (proj2 Px)) in Fit.
  destruct (list_eq_dec Nat.eq_dec p q) as [->|N].
  - assert (x = e) by (destruct Px, Hq; congruence). subst x. apply (bits_main (sy_root y) q); auto.
    apply (St eq_refl 0 (mg_main m) ok bb); try lia.
    + apply (bits_main (sy_root y) q); auto. apply E.
    + right. exists v. rewrite Nat.sub_0_r. split; auto. destruct (hval_size v); auto.
  - destruct (handle_write_bits (sy_root y) p x v 0 (mg_main m) ok bb W Px) as [_ B]; auto; try lia. { rewrite Nat.sub_0_r. auto. }
    apply (A (mbit (mg_main m))); [|apply E]. intros i Hi.
    specialize (B i ltac:(lia)). unfold bits_at in B. rewrite Nat.sub_0_r in B. symmetry. apply B. intros Ho.
    apply (owns_apart (sy_root y) p q i W Fa); auto. apply (params_unrelated (sy_root y) p q x e); auto.
Qed.

Lemma owns_param_range : forall root q e i, elem_wf root = true -> param_at root q e -> owns root q i ->
  8 * offset root q <= i < 8 * (offset root q + storage_size e).
Proof. intros root q e i W [P _] H. apply (owns_range root q e i); auto. Qed.

(** Raw bytes written elsewhere. *)
Lemma bytes_elsewhere : forall root p x q e i, structure_ok (Sys root (fun _ => None) (fun _ _ => true)) -> elem_at root p = Some x ->
  param_at root q e -> ~ above p q -> owns root q i -> i / 8 < offset root p \/ offset root p + footprint x <= i / 8.
Proof.
  intros root p x q e i [W Fa] Ex Hq N Ho. cbn [sy_root] in *. pose proof (owns_param_range root q e i W Hq Ho) as R.
  destruct (Nat.eq_dec (footprint x) 0) as [Z|NZ]; [rewrite Z; lia|].
  assert (unrelated p q) as U.
  { split; auto. intros C. destruct C as [r ->]. destruct r as [|k r]; [rewrite app_nil_r in *; destruct N; apply above_refl|].
    rewrite elem_at_app, (proj1 Hq) in Ex. cbn [elem_at] in Ex.
    assert (e_children e = []) as E0.
    { destruct (elem_wf_at q root e W (proj1 Hq)) as [X|[t [nm [-> _]]]]; auto. apply param_no_children; auto. apply Hq. }
    destruct e as [nm kk cs]. simpl in E0. subst cs. destruct k; discriminate. }
  destruct (Nat.lt_ge_cases (i / 8) (offset root p)) as [C|C]; auto. right.
  destruct (Nat.lt_ge_cases (i / 8) (offset root p + footprint x)) as [C2|C2]; auto. exfalso.
  apply (owns_apart root p q i W Fa U); auto. assert (8 * offset root p <= i) as C3.
  { pose proof (Nat.mul_div_le i 8 ltac:(lia)). lia. }
  exists x. split; auto. split; auto. unfold field_bit. apply div8_lt in C2.
  assert (forall t, e_kind x <> KdBit t) as NB.
  { intros t Kx. apply NZ. destruct x as [nm k cs]. simpl in Kx. subst k. 
    destruct (elem_wf_at p root _ W Ex) as [X|[t2 [nm2 [X _]]]]; [|inversion X; subst; auto].
    assert (cs = []) by (apply (param_no_children (Elem nm (KdBit t) cs) X eq_refl)). subst. auto. }
  destruct (e_kind x); try (apply Nat.ltb_lt; lia). destruct (NB t); auto.
Qed.

Lemma handle_bytes_everywhere : forall y p bytes m b m' q e S, structure_ok y -> List.length (mg_main m) = footprint (sy_root y) ->
  param_at (sy_root y) q e -> about (sy_root y) q S -> handle_bytes y p bytes m = Ok (b, m') ->
  ~ above p q -> everywhere y q S m -> everywhere y q S m'.
Proof.
  intros y p bytes m b m' q e S Hst L Hq A H N E. pose proof Hst as [W Fa]. unfold handle_bytes, set_bytes in H.
  destruct (elem_at (sy_root y) p) as [x|] eqn:Ex; [|inversion H; subst; auto].
  destruct (Nat.eqb_spec (footprint x) (List.length bytes)) as [Hl|]; [|inversion H; subst; auto].
  assert (offset (sy_root y) p + List.length bytes <= List.length (mg_main m)) as B.
  { rewrite <- Hl, L. destruct (layout_inside_parent (sy_root y) [] p (sy_root y) x W eq_refl Ex) as [_ X]. cbn [app] in X. change (offset (sy_root y) []) with 0 in X. lia. }
  destruct (bb_write_contract (mg_main m) bytes (offset (sy_root y) p) B) as [bb [H1 [_ [_ H2]]]]. rewrite Nat.sub_0_r, H1 in H.
  assert (mg_doms m' = mg_doms m /\ mg_main m' = bb) as [D1 D2].
  { destruct (mg_autosync m); [destruct (sync_set _ _ _ _) as [[? ?] ?]|]; inversion H; auto. }
  apply (everywhere_main y q S m); auto. rewrite D2. apply (A (mbit (mg_main m))); [|apply E]. intros i Hi. symmetry. apply mbit_same_byte. apply H2.
  rewrite <- Hl. apply (bytes_elsewhere (sy_root y) p x q e); auto.
Qed.

(** An area that holds the storage of a parameter. *)
Lemma area_fits : forall root a q e, elem_wf root = true -> area_ok root a -> param_at root q e -> above (ar_pos a) q ->
  offset root (ar_pos a) <= offset root q /\ offset root q - offset root (ar_pos a) + storage_size e <= List.length (ar_bb a).
Proof.
  intros root a q e W [x [X1 X2]] Hq Ab. destruct (storage_above root (ar_pos a) q x e W Ab X1 (proj1 Hq)) as [S1 S2]. rewrite X2. lia.
Qed.

Lemma set_recorded_everywhere : forall y dom name path s m b m' q e S, structure_ok y -> mgr_ok y m ->
  param_at (sy_root y) q e -> about (sy_root y) q S -> set_recorded y dom name path s m = Ok (b, m') ->
  ((exists rest, param_of (sy_root y) path = Some (q, rest)) -> stable y q e S) -> everywhere y q S m -> everywhere y q S m'.
Proof.
  intros y dom name path s m b m' q e S Hst [K [V L]] Hq A H St E. pose proof Hst as [W Fa]. unfold set_recorded in H.
  destruct (locate (sy_root y) path) as [p|] eqn:El; [|inversion H; subst; auto].
  destruct (ds_find_blackboard dom name p (mg_doms m)) as [[[d c] g]|] eqn:Ef; [|inversion H; subst; auto].
  destruct (find_blackboard_spec y dom name p _ d c g K Ef) as [F1 [F2 [F3 [F4 [a [A1 [A2 A3]]]]]]].
  pose proof (ds_domain _ _ K d (ds_find_In _ _ _ F1)) as Kd. destruct (dk_configs _ _ Kd c (dm_find_In _ _ _ F2)) as [Pm Fo].
  rewrite Forall_forall in Fo. pose proof (Fo a A1) as Oa.
  destruct (locate_param (sy_root y) path p W El) as [x [Ex Hp]].
  destruct (access_set (sy_root y) (mg_fmt m) path s (offset (sy_root y) g) (cf_area_bb g c)) as [[ok bb]| | |] eqn:Ea; try discriminate. cbn [obind fst snd] in H.
  destruct (ds_edit dom name g bb (mg_doms m)) as [[b1 s1]| | |] eqn:Ed; try discriminate. cbn [obind fst snd] in H.
  assert (everywhere y q S (with_doms m s1)) as E1.
  { apply everywhere_areas. split; [apply E|]. cbn [mg_doms with_doms].
    destruct (ds_on_cases _ _ _ _ _ Ed) as [[N _]|[l1 [d0 [l2 [d' [G1 [G2 [G3 [G4 ->]]]]]]]]]; [congruence|].
    destruct (dm_on_config_cases _ _ _ _ _ G4) as [[N _]|[k1 [c0 [k2 [c' [I1 [I2 [I3 [I4 ->]]]]]]]]]; [congruence|].
    assert (d0 = d) by congruence. subst d0. assert (c0 = c) by congruence. subst c0. inversion I4; subst b1 c'.
    intros z Hz Az. unfold ds_areas in Hz. cbn [ds_list] in Hz. rewrite flat_map_app in Hz. cbn [flat_map] in Hz. rewrite !in_app_iff in Hz.
    assert (forall w, In w (ds_areas (mg_doms m)) -> above (ar_pos w) q -> S (area_bits (sy_root y) w)) as Old.
    { intros w Hw. apply everywhere_areas in E. apply E. auto. }
    destruct Hz as [Hz|[Hz|Hz]].
    - apply Old; auto. unfold ds_areas. rewrite G2, flat_map_app, in_app_iff. auto.
    - unfold dm_areas in Hz. cbn [dm_configs with_configs] in Hz. rewrite flat_map_app in Hz. cbn [flat_map] in Hz. rewrite !in_app_iff in Hz.
      assert (forall w, In w (dm_areas d) -> In w (ds_areas (mg_doms m))) as Up.
      { intros w Hw. unfold ds_areas. rewrite G2, flat_map_app. cbn [flat_map]. rewrite !in_app_iff. auto. }
      assert (forall w k, In k (dm_configs d) -> In w (cf_areas k) -> In w (dm_areas d)) as Up2.
      { intros w k Hk Hw. unfold dm_areas. apply in_flat_map. eauto. }
      destruct Hz as [Hz|[Hz|Hz]].
      + apply Old; auto. apply Up. unfold dm_areas. rewrite I2, flat_map_app, in_app_iff. auto.
      + unfold cf_edit in Hz. cbn [cf_areas with_areas] in Hz. apply in_map_iff in Hz. destruct Hz as [w [Hw Iw]].
        assert (In w (ds_areas (mg_doms m))) as Hw2.
        { apply Up, (Up2 w c); auto. rewrite I2. apply in_or_app. simpl. auto. }
        destruct (pos_eqb (ar_pos w) g) eqn:Pw; [|subst w; apply Old; auto]. apply pos_eqb_eq in Pw. subst z. cbn [ar_pos] in Az.
        assert (w = a) as ->.
        { apply (NoDup_map_in _ _ ar_pos (cf_areas c)); auto; [|congruence]. apply (Permutation_NoDup (Permutation_sym Pm)). apply (dk_separate _ _ Kd). }
        assert (S (area_bits (sy_root y) a)) as Sa by (apply Old; auto).
        unfold area_bits. cbn [ar_pos ar_bb]. rewrite A3 in Ea. unfold access_set in Ea. rewrite Hp in Ea.
        destruct (is_param (e_kind x)) eqn:Ix; [|inversion Ea; subst; exact Sa]. rewrite Ex in Ea.
        assert (param_at (sy_root y) p x) as Px by (split; auto). rewrite <- Pw in *.
        destruct (area_fits (sy_root y) a p x W Oa Px F4) as [T1 T2].
        destruct (list_eq_dec Nat.eq_dec p q) as [->|N].
        * assert (x = e) by (destruct Hq; congruence). subst x. apply (St ltac:(rewrite Hp; eauto) (offset (sy_root y) (ar_pos a)) (ar_bb a) ok bb); eauto.
        * destruct (leaf_set_bits (sy_root y) p x (mg_fmt m) [] s (offset (sy_root y) (ar_pos a)) (ar_bb a) ok bb W Px T1 T2 Ea) as [_ B].
          apply (A (area_bits (sy_root y) a)); auto. intros i Hi. symmetry.
          destruct (area_fits (sy_root y) a q e W Oa Hq Az) as [T3 _]. pose proof (owns_param_range _ _ _ _ W Hq Hi).
          apply B; [lia|]. intros Ho. apply (owns_apart (sy_root y) p q i W Fa); auto. apply (params_unrelated (sy_root y) p q x e); auto.
      + apply Old; auto. apply Up. unfold dm_areas. rewrite I2, flat_map_app. cbn [flat_map]. rewrite !in_app_iff. auto.
    - apply Old; auto. unfold ds_areas. rewrite G2, flat_map_app. cbn [flat_map]. rewrite !in_app_iff. auto. }
  destruct ok; [|inversion H; subst; auto]. destruct (is_last d c); [|inversion H; subst; auto].
  apply (set_live_everywhere y path s (with_doms m s1) b m' q e S); auto.
Qed.

Lemma applied_areas : forall cs force l, flat_map dm_areas (map (applied cs force) l) = flat_map dm_areas l.
Proof.
  intros cs force l. induction l as [|d l IH]; auto. cbn [map flat_map]. rewrite IH. f_equal. unfold applied.
  destruct (dm_applicable cs d); auto. destruct force; auto.
Qed.

Lemma taken_In : forall cs force l c, In c (taken cs force l) -> exists d, In d l /\ In c (dm_configs d).
Proof.
  intros cs force l c H. unfold taken in H. apply in_flat_map in H. destruct H as [d [Hd Hc]]. exists d. split; auto.
  unfold chosen in Hc. destruct (dm_applicable cs d) as [k|] eqn:E; [|destruct Hc]. unfold dm_applicable in E. apply find_some in E.
  destruct (negb force && is_last d k); [destruct Hc|]. destruct Hc as [<-|[]]. tauto.
Qed.

Lemma do_apply_everywhere : forall y force need m m' q e S, structure_ok y -> mgr_ok y m ->
  param_at (sy_root y) q e -> about (sy_root y) q S -> do_apply y force need m = Ok m' -> everywhere y q S m -> everywhere y q S m'.
Proof.
  intros y force need m m' q e S Hst [K [V L]] Hq A H E. unfold do_apply in H.
  destruct (ds_apply_spec y (mg_crits m) force (resync_syncers y need) (mg_doms m) (mg_main m) (mg_trace m) Hst K L (resync_sorted y need))
    as [mid [m2 [col [e1 [e2 [E1 [W1 [W2 _]]]]]]]].
  rewrite E1 in H. cbn [obind] in H. inversion H; subst m'.
  assert (forall f, forall c, In c (taken (mg_crits m) force (filter f (ds_list (mg_doms m)))) ->
    exists k, config_ok (sy_root y) k c /\ incl (cf_areas c) (ds_areas (mg_doms m))) as T.
  { intros f c Hc. apply taken_In in Hc. destruct Hc as [d [Hd Hc]]. apply filter_In in Hd. exists (dm_elems d). split.
    - apply (dk_configs _ _ (ds_domain _ _ K d (proj1 Hd)) c Hc).
    - intros a Ha. apply in_ds_areas. exists d, c. tauto. }
  apply (everywhere_flow y q S m); auto; cbn [mg_main mg_doms with_crits with_trace with_main with_doms].
  - apply (copied_trans y q (mg_main m) mid).
    + eapply (written_all_copied y Hst q e Hq); [apply T|exact W1].
    + eapply (written_all_copied y Hst q e Hq); [apply T|exact W2].
  - unfold ds_areas. cbn [ds_list]. rewrite applied_areas. apply flow_incl, incl_refl.
Qed.

Theorem step_everywhere : forall y m c b m' q e S, system_ok y -> mgr_ok y m -> param_at (sy_root y) q e -> about (sy_root y) q S ->
  cmd_ok c -> step y m c = Ok (b, m') -> ~ writes_bytes c q -> (writes y c q -> stable y q e S) ->
  everywhere y q S m -> everywhere y q S m'.
Proof.
  intros y m c b m' q e S [Hst O] M Hq A Hc H Nb St E. pose proof M as [K [V L]]. pose proof (proj1 Hst) as W.
  assert (forall b0 m0 k, tuned m k = Ok (b0, m0) -> (k = Ok (b0, m0) -> everywhere y q S m0) -> everywhere y q S m0) as T.
  { intros b0 m0 k Hk G. unfold tuned in Hk. destruct (mg_tuning m); auto. inversion Hk; subst. auto. }
  assert (forall b0 m0 o, on_doms m o = Ok (b0, m0) -> (forall s, o = Ok (b0, s) -> flow (sy_root y) q (mg_main m) (ds_areas (mg_doms m)) (ds_areas s)) ->
    everywhere y q S m0) as D.
  { intros b0 m0 o Ho G. unfold on_doms in Ho. destruct o as [[b1 s]| | |]; try discriminate. cbn [obind fst snd] in Ho. inversion Ho; subst.
    apply everywhere_doms; auto. }
  destruct c; cbn [step] in H; cbn [writes writes_bytes cmd_ok] in *.
  - apply (T _ _ _ H). intros G. apply (set_live_everywhere y path value m b m' q e S); auto.
  - apply (set_recorded_everywhere y dom conf path value m b m' q e S); auto.
  - unfold set_tuning in H. destruct (Bool.eqb on (mg_tuning m)); [inversion H; subst; auto|]. destruct (on && negb (mg_allowed m)); [inversion H; subst; auto|].
    destruct on; [inversion H; subst; auto|]. destruct (do_apply y true need m) as [m1| | |] eqn:Ea; try discriminate. cbn [obind] in H. inversion H; subst.
    pose proof (do_apply_everywhere y true need m m1 q e S Hst M Hq A Ea E) as E1. exact E1.
  - unfold set_autosync, do_sync in H. destruct (on && negb (mg_autosync m)); [|inversion H; subst; auto].
    destruct (mg_autosync m); [inversion H; subst; auto|]. destruct (sync_set _ _ _ _) as [[ok er] tr]. destruct ok; inversion H; subst; exact E.
  - unfold do_sync in H. destruct (mg_autosync m); [inversion H; subst; auto|]. destruct (sync_set _ _ _ _) as [[ok er] tr]. inversion H; subst; exact E.
  - inversion H; subst; exact E.
  - inversion H; subst; exact E.
  - apply (T _ _ _ H). intros G. apply (D _ _ _ G). intros s Es. inversion Es as [E1]. unfold ds_create in E1.
    destruct (ds_find name (mg_doms m)); inversion E1; subst; [apply flow_incl, incl_refl|]. unfold ds_areas. cbn [ds_list]. rewrite flat_map_app.
    apply flow_app; [apply flow_incl, incl_refl|]. intros a []. 
  - apply (T _ _ _ H). intros G. apply (D _ _ _ G). intros s Es. inversion Es as [E1]. unfold ds_delete in E1.
    destruct (ds_find name (mg_doms m)) as [d|] eqn:Fd; inversion E1; subst; [|apply flow_incl, incl_refl].
    destruct (ds_find_split _ _ _ Fd) as [l1 [l2 [F1 [F2 F3]]]]. unfold ds_areas. cbn [ds_list]. rewrite F1, drop_domain_split by auto.
    apply flow_incl. rewrite !flat_map_app. cbn [flat_map]. intros a. rewrite !in_app_iff. tauto.
  - apply (T _ _ _ H). intros G. apply (D _ _ _ G). intros s Es. inversion Es; subst. intros a [].
  - apply (D _ _ _ H). intros s Es. inversion Es as [E1]. unfold ds_rename in E1.
    destruct (ds_find name (mg_doms m)) as [d|] eqn:Fd; [|inversion E1; subst; apply flow_incl, incl_refl].
    destruct (existsb _ (ds_list (mg_doms m))); [inversion E1; subst; apply flow_incl, incl_refl|].
    destruct (ds_find_split _ _ _ Fd) as [l1 [l2 [F1 [F2 F3]]]]. rewrite F1, upd_domain_split in E1 by auto. cbn [obind fst snd] in E1. inversion E1; subst.
    unfold ds_areas. cbn [ds_list]. rewrite F1. apply flow_replace. apply flow_incl, incl_refl.
  - apply (T _ _ _ H). intros G. apply (D _ _ _ G). intros s Es. apply (flow_on y q _ _ _ _ _ _ Es). intros d b1 d' Hd Ed. inversion Ed; subst. apply flow_incl, incl_refl.
  - apply (T _ _ _ H). intros G. apply (D _ _ _ G). intros s Es. eapply (flow_create_config y Hst q); eauto.
  - apply (T _ _ _ H). intros G. apply (D _ _ _ G). intros s Es. eapply (flow_delete_config y q); eauto.
  - apply (D _ _ _ H). intros s Es. eapply (flow_rename_config y q); eauto.
  - apply (T _ _ _ H). intros G. clear H.
    destruct (ds_restore_spec y dom conf (mg_autosync m) (mg_doms m) (mg_main m) (mg_trace m) Hst K L) as [b2 [s' [bb [er [tr [E1 [_ [_ [_ [R1 [R2 R3]]]]]]]]]]].
    rewrite E1 in G. cbn [obind] in G. inversion G; subst.
    destruct (ds_find dom (mg_doms m)) as [d|] eqn:Fd; [|destruct (R1 eq_refl) as [_ [-> [-> _]]]; exact E].
    destruct (dm_find conf d) as [k|] eqn:Fk; [|destruct (R2 d eq_refl Fk) as [_ [-> [-> _]]]; exact E].
    destruct (R3 d k eq_refl Fk) as [l1 [l2 [evs [Q1 [-> [_ [_ [_ [Q2 _]]]]]]]]].
    pose proof (dm_find_In _ _ _ Fk) as Ik. pose proof (ds_find_In _ _ _ Fd) as Id.
    apply (everywhere_flow y q S m); auto; cbn [mg_main mg_doms with_trace with_main with_doms].
    + apply (copied_more y q _ (cf_areas k)); [intros a Ha; apply in_ds_areas; eauto|].
      apply (written_copied y Hst q e Hq (dm_elems d) k); auto. apply (dk_configs _ _ (ds_domain _ _ K d Id) k Ik).
    + unfold ds_areas. cbn [ds_list]. rewrite Q1. apply flow_replace. apply flow_incl, incl_refl.
  - apply (T _ _ _ H). intros G. apply (D _ _ _ G). intros s Es. eapply (flow_save y Hst q); eauto.
  - apply (T _ _ _ H). intros G. unfold on_located in G. destruct (locate (sy_root y) path) as [p|] eqn:El; [|inversion G; subst; auto].
    apply (D _ _ _ G). intros s Es. eapply (flow_add y Hst q e Hq); eauto. apply (locate_sound _ _ _ El).
  - apply (T _ _ _ H). intros G. unfold on_located in G. destruct (locate (sy_root y) path) as [p|] eqn:El; [|inversion G; subst; auto].
    apply (D _ _ _ G). intros s Es. eapply (flow_remove y q); eauto.
  - apply (T _ _ _ H). intros G. unfold on_located in G. destruct (locate (sy_root y) path) as [p|] eqn:El; [|inversion G; subst; auto].
    apply (D _ _ _ G). intros s Es. eapply (flow_split y Hst q); eauto.
  - apply (T _ _ _ H). intros G. apply (D _ _ _ G). intros s Es. eapply (flow_sequence y q); eauto.
  - apply (D _ _ _ H). intros s Es. eapply (flow_rule y q); eauto.
  - apply (D _ _ _ H). intros s Es. eapply (flow_clear_rule y q); eauto.
  - unfold apply_configurations in H. destruct (mg_tuning m); [inversion H; subst; auto|].
    destruct (do_apply y false need m) as [m1| | |] eqn:Ea; try discriminate. cbn [obind] in H. inversion H; subst.
    apply (do_apply_everywhere y false need m m' q e S); auto.
  - inversion H; subst; exact E.
  - apply (handle_set_everywhere y p v m b m' q e S); auto.
  - apply (handle_bytes_everywhere y p bytes m b m' q e S); auto.
Qed.

Theorem run_everywhere : forall y cs m bs m' q e S, system_ok y -> mgr_ok y m -> param_at (sy_root y) q e -> about (sy_root y) q S ->
  Forall cmd_ok cs -> run y m cs = Ok (bs, m') -> (forall c, In c cs -> ~ writes_bytes c q /\ (writes y c q -> stable y q e S)) ->
  everywhere y q S m -> everywhere y q S m'.
Proof.
  intros y cs. induction cs as [|c cs IH]; intros m bs m' q e S Hy M Hq A Hc H Hw E; cbn [run] in H; [inversion H; subst; auto|].
  inversion Hc; subst. destruct (step y m c) as [[b m1]| | |] eqn:Es; try discriminate. cbn [obind fst snd] in H.
  destruct (run y m1 cs) as [[bs1 m2]| | |] eqn:Er; try discriminate. cbn [obind fst snd] in H. inversion H; subst.
  assert (mgr_ok y m1) as M1.
  { destruct (step_ok y m c Hy M) as [[b2 [m3 [X1 X2]]]|[X _]]; rewrite Es in *; [inversion X1; subst; auto|discriminate]. }
  apply (IH m1 bs1 m' q e S); auto.
  - intros k Hk. apply Hw. simpl. auto.
  - destruct (Hw c ltac:(simpl; auto)) as [W1 W2]. apply (step_everywhere y m c b m1 q e S); auto.
Qed.
