(** What the getters return, from the bits of the memories. *)
From Coq Require Import List Arith ZArith Bool Permutation Lia.
From Verif Require Import Base BaseProofs BlackboardModel ParamTypeModel ArrayModel ArraySpec TreeModel TreeSpec TreeProofs MemSpec MemProofs SyncModel SyncProofs DomainModel DomainSpec
  AreaProofs DomainProofs DomainInv DomainApply DomainsInv MgrModel MgrSpec MgrProofs MgrFlow MgrSkel ValueSpec ValueProofs.
Import ListNotations.
Local Open Scope nat_scope.

Lemma typed_strings : forall y m, system_ok y -> reachable_typed y m -> strings_terminated (sy_root y) (mg_main m).
Proof.
  intros y m Sy R p e max E K. assert (param_at (sy_root y) p e) as Hp by (split; auto; rewrite K; auto).
  destruct (typed_valued y m p e _ Sy R Hp K) as [V _]. rewrite K in V. exact V.
Qed.

Lemma typed_recorded_strings : forall y m d c a q e max, system_ok y -> reachable_typed y m -> In d (ds_list (mg_doms m)) -> In c (dm_configs d) -> In a (cf_areas c) ->
  above (ar_pos a) q -> elem_at (sy_root y) q = Some e -> e_kind e = KdString max -> terminated max (offset (sy_root y) q - offset (sy_root y) (ar_pos a)) (ar_bb a).
Proof.
  intros y m d c a q e max Sy R Hd Hc Ha Ab E K. assert (param_at (sy_root y) q e) as Hp by (split; auto; rewrite K; auto).
  destruct (typed_valued y m q e _ Sy R Hp K) as [_ V]. specialize (V d c a Hd Hc Ha Ab). rewrite K in V. exact V.
Qed.

Lemma get_same : forall y m m' path q rest, elem_wf (sy_root y) = true -> List.length (mg_main m) = footprint (sy_root y) ->
  List.length (mg_main m') = footprint (sy_root y) -> mg_fmt m' = mg_fmt m -> param_of (sy_root y) path = Some (q, rest) -> strings_terminated (sy_root y) (mg_main m) ->
  same_setting (sy_root y) q 0 (mg_main m') 0 (mg_main m) -> get_parameter y path m' = get_parameter y path m.
Proof.
  intros y m m' path q rest W L L' F P T S. unfold get_parameter, access_get. rewrite P, F. destruct (param_of_sound _ _ _ _ P) as [e He]. pose proof He as [Ee _]. rewrite Ee.
  symmetry. pose proof (param_storage_fits _ _ _ W He) as Fi. apply (same_setting_get (sy_root y) q e (mg_fmt m) rest 0 (mg_main m) 0 (mg_main m') W He); auto; try lia.
  - intros max K. rewrite Nat.sub_0_r. apply (T q e max); auto.
  - intros i O. symmetry. apply (S i O).
Qed.

Lemma one_area : forall y d c a a' q, domain_ok y d -> In c (dm_configs d) -> In a (cf_areas c) -> In a' (cf_areas c) -> above (ar_pos a) q -> above (ar_pos a') q -> a = a'.
Proof.
  intros y d c a a' q Kd Hc Ha Ha' A A'. destruct (dk_configs _ _ Kd c Hc) as [Pm _]. destruct (dk_separate _ _ Kd) as [Nd Sep].
  assert (NoDup (map ar_pos (cf_areas c))) as N by (apply (Permutation_NoDup (Permutation_sym Pm)); auto).
  assert (ar_pos a = ar_pos a') as E.
  { destruct (list_eq_dec Nat.eq_dec (ar_pos a) (ar_pos a')) as [|D]; auto. exfalso.
    destruct (Sep (ar_pos a) (ar_pos a') (Permutation_in _ Pm (in_map _ _ _ Ha)) (Permutation_in _ Pm (in_map _ _ _ Ha')) D) as [U1 U2].
    destruct (above_both (ar_pos a) (ar_pos a') q A A') as [X|X]; auto. }
  revert N Ha Ha' E. clear. induction (cf_areas c) as [|x l IH]; intros N Ha Ha' E; [destruct Ha|]. simpl in N. inversion N; subst.
  destruct Ha as [->|Ha]; destruct Ha' as [->|Ha']; auto.
  - exfalso. apply H1. rewrite E. apply in_map. auto.
  - exfalso. apply H1. rewrite <- E. apply in_map. auto.
Qed.

Lemma recorded_area : forall y m dn cn path q e d c, system_ok y -> mgr_ok y m -> locate (sy_root y) path = Some q -> param_at (sy_root y) q e ->
  ds_find dn (mg_doms m) = Some d -> dm_find cn d = Some c -> covers d q -> is_last d c = false ->
  exists a, In a (cf_areas c) /\ above (ar_pos a) q
    /\ get_recorded y dn cn path m = access_get (sy_root y) (mg_fmt m) path (offset (sy_root y) (ar_pos a)) (ar_bb a).
Proof.
  intros y m dn cn path q e d c [[W _] _] [K [V L]] P Hq Fd Fc [p [Hp Ab]] NL. unfold get_recorded. rewrite P.
  destruct (ds_find_blackboard dn cn q (mg_doms m)) as [[[d0 c0] x]|] eqn:E.
  - destruct (find_blackboard_spec _ _ _ _ _ _ _ _ K E) as [F1 [F2 [F3 [F4 [a [F5 [F6 F7]]]]]]]. rewrite Fd in F1. inversion F1; subst d0. rewrite Fc in F2. inversion F2; subst c0.
    exists a. split; auto. rewrite F6. split; auto. rewrite F7, NL. destruct (access_get _ _ _ _ _); auto.
  - exfalso. unfold ds_find_blackboard in E. rewrite Fd in E. unfold dm_find_blackboard in E. rewrite Fc in E.
    assert (belongs_to (ds_att (mg_doms m)) q (dm_id d) = true) as B.
    { apply belongs_to_spec. exists p. split; auto. apply (ds_attached _ _ K). exists d. split; [apply (ds_find_In _ _ _ Fd)|auto]. }
    rewrite B in E. destruct (find _ (dm_elems d)) as [x|] eqn:X; [discriminate|]. pose proof (find_none _ _ X p Hp) as N. simpl in N. apply orb_false_iff in N. destruct N as [N1 N2].
    assert (p <> q) as D by (intros ->; rewrite pos_eqb_refl in N1; discriminate).
    assert (descendant_of q p = true) as C by (apply descendant_spec; auto). congruence.
Qed.

Lemma recorded_live : forall y m m' dn cn path q e d c, system_ok y -> mgr_ok y m -> List.length (mg_main m') = footprint (sy_root y) -> mg_fmt m' = mg_fmt m ->
  reachable_typed y m -> locate (sy_root y) path = Some q -> param_at (sy_root y) q e ->
  ds_find dn (mg_doms m) = Some d -> dm_find cn d = Some c -> covers d q -> is_last d c = false ->
  records (sy_root y) c q 0 (mg_main m') -> get_recorded y dn cn path m = get_parameter y path m'.
Proof.
  intros y m m' dn cn path q e d c Sy K L' F R P Hq Fd Fc Cv NL [a0 [Ha0 [Ab0 S]]]. pose proof (proj1 (proj1 Sy)) as W.
  destruct (recorded_area y m dn cn path q e d c Sy K P Hq Fd Fc Cv NL) as [a [Ha [Ab E]]].
  pose proof (ds_domain _ _ (proj1 K) d (ds_find_In _ _ _ Fd)) as Kd. pose proof (dm_find_In _ _ _ Fc) as Hc.
  assert (a0 = a) as -> by (apply (one_area y d c a0 a q); auto).
  destruct (locate_param _ _ _ W P) as [e' [Ee Pp]]. pose proof (proj1 Hq) as Eq. assert (e' = e) as -> by congruence. rewrite (proj2 Hq) in Pp.
  assert (area_ok (sy_root y) a) as Ka. { destruct (dk_configs _ _ Kd c Hc) as [_ Fo]. rewrite Forall_forall in Fo. auto. }
  destruct (area_fits _ _ _ _ W Ka Hq Ab) as [F1 F2]. pose proof (param_storage_fits _ _ _ W Hq) as Fi. rewrite (storage_size_kind e (proj2 Hq)) in F2.
  rewrite E. unfold get_parameter, access_get. rewrite Pp, Eq, F. apply (same_setting_get (sy_root y) q e (mg_fmt m) [] _ _ 0 (mg_main m') W Hq); auto; try lia.
  intros max Km. apply (typed_recorded_strings y m d c a q e max); auto. apply (ds_find_In _ _ _ Fd).
Qed.
