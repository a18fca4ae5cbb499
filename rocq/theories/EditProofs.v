(** Proofs about the edition of recorded settings (C52). *)
From Coq Require Import List Arith ZArith Bool Permutation Lia Ascii String.
From Verif Require Import Base BaseProofs TextModel TextSpec TextProofs ParamTypeModel ParamTypeSpec BlackboardModel BlackboardProofs BitModel BitSpec BitProofs ArrayModel ArraySpec ArrayProofs CriterionModel RuleModel
  TreeModel TreeSpec TreeProofs MemSpec MemProofs SyncModel SyncProofs DomainModel DomainSpec
  AreaProofs DomainProofs DomainInv DomainApply DomainsInv MgrModel MgrSpec MgrProofs MgrFlow MgrSkel ApplySpec ApplyProofs ValueSpec ValueProofs ReadProofs ApplyMore ConfigSpec ConfigProofs ConfigProofs2.
Import ListNotations.
Local Open Scope nat_scope.

(** The text gives a value to the whole parameter: always, unless an array receives fewer values than it has. *)
Definition whole (k : ekind) (s : str) : Prop :=
  match k with KdArray _ len => exists vals, runs array_delimiters s vals /\ List.length vals = len | _ => True end.

Lemma write_read : forall bb u n off bb', bb_write_int bb u n off = Ok bb' -> bb_read_int bb' n off = Ok (word_of n u).
Proof. intros bb u n off bb' H. unfold word_of. rewrite (bb_write_int_read_same _ _ _ _ _ H). rewrite Z.pow_mul_r by lia. reflexivity. Qed.

Lemma first_zero : forall s : list ascii, ~ In zero s \/ exists a r, s = a ++ zero :: r /\ ~ In zero a.
Proof.
  intros s. induction s as [|x s IH]; [left; intros []|]. destruct (ascii_dec x zero) as [->|D]; [right; exists [], s; split; auto|].
  destruct IH as [N|[a [r [-> N]]]]; [left; intros [C|C]; congruence || auto|]. right. exists (x :: a), r. split; auto. intros [C|C]; congruence || auto.
Qed.

Lemma cells_read : forall t f n us off1 b1 off2 b2, List.length us = n ->
  (forall j u, nth_error us j = Some u -> bb_read_int b1 (pt_size t) (off1 + j * pt_size t) = Ok (word_of (pt_size t) u)) ->
  (forall j u, nth_error us j = Some u -> bb_read_int b2 (pt_size t) (off2 + j * pt_size t) = Ok (word_of (pt_size t) u)) ->
  array_get_list t f n off1 b1 = array_get_list t f n off2 b2.
Proof.
  intros t f n. induction n as [|n IH]; intros us off1 b1 off2 b2 L H1 H2; auto. destruct us as [|u us]; [discriminate|]. cbn [array_get_list].
  pose proof (H1 0 u eq_refl) as R1. pose proof (H2 0 u eq_refl) as R2. cbn [Nat.mul] in R1, R2. rewrite Nat.add_0_r in R1, R2. unfold param_get_str. rewrite R1, R2. cbn [obind].
  rewrite (IH us (off1 + pt_size t) b1 (off2 + pt_size t) b2); auto.
  - intros j v Hj. specialize (H1 (S j) v Hj). rewrite <- H1. f_equal. cbn [Nat.mul]. lia.
  - intros j v Hj. specialize (H2 (S j) v Hj). rewrite <- H2. f_equal. cbn [Nat.mul]. lia.
Qed.

(** What is read after a text was accepted depends on the text only. *)
Lemma set_then_get : forall k f g s off base1 b1 ok1 b1' base2 b2 ok2 b2', kind_wf k -> whole k s ->
  off - base1 + size_of_kind k <= List.length b1 -> off - base2 + size_of_kind k <= List.length b2 ->
  leaf_set k f [] s off base1 b1 = Ok (ok1, b1') -> leaf_set k f [] s off base2 b2 = Ok (ok2, b2') ->
  ok2 = ok1 /\ (ok1 = true -> leaf_get k g [] off base1 b1' = leaf_get k g [] off base2 b2').
Proof.
  intros k f g s off base1 b1 ok1 b1' base2 b2 ok2 b2' Wk Wh L1 L2 H1 H2. unfold leaf_set in H1, H2. unfold leaf_get. destruct k; try (inversion H1; inversion H2; subst; split; [auto|discriminate]).
  - rewrite bitparam_set_str_core in H1, H2. pose proof (proj1 (strtoull0_range s)) as P. cbn [kind_wf size_of_kind] in Wk, L1, L2.
    destruct (bit_set_core t (strtoull0 s) (off - base1) b1 Wk L1 P) as [A1 B1]. destruct (bit_set_core t (strtoull0 s) (off - base2) b2 Wk L2 P) as [A2 B2].
    destruct (Z_le_gt_dec (strtoull0 s) (bt_max t)) as [L|L].
    + destruct (A1 L) as [c1 [E1 [_ [G1 _]]]]. destruct (A2 L) as [c2 [E2 [_ [G2 _]]]]. rewrite E1 in H1. rewrite E2 in H2. cbn [committed] in H1, H2. inversion H1; inversion H2; subst.
      split; auto. intros _. rewrite G1, G2. auto.
    + rewrite B1 in H1 by lia. rewrite B2 in H2 by lia. cbn [committed] in H1, H2. inversion H1; inversion H2; subst. split; [auto|discriminate].
  - unfold param_set_str in H1, H2. destruct (to_bb_str t f s) as [u| | |]; cbn [obind committed] in H1, H2; try discriminate; [|inversion H1; inversion H2; subst; split; [auto|discriminate]].
    destruct (bb_write_int b1 u (pt_size t) (off - base1)) as [c1| | |] eqn:E1; cbn [committed] in H1; try discriminate;
      destruct (bb_write_int b2 u (pt_size t) (off - base2)) as [c2| | |] eqn:E2; cbn [committed] in H2; try discriminate.
    + inversion H1; inversion H2; subst. split; auto. intros _. unfold param_get_str. rewrite (write_read _ _ _ _ _ E1), (write_read _ _ _ _ _ E2). auto.
    + exfalso. unfold bb_write_int, bb_write in E2. destruct (bb_access_ok _ _ _); discriminate.
    + exfalso. unfold bb_write_int, bb_write in E1. destruct (bb_access_ok _ _ _); discriminate.
    + exfalso. unfold bb_write_int, bb_write in E1. destruct (bb_access_ok _ _ _); discriminate.
  - cbn [whole] in Wh. destruct Wh as [vals [Rn Ln]]. unfold array_access_set in H1, H2. cbn [array_index] in H1, H2. destruct (first_refused t f vals) as [[us Fo]|[good [us [v [rest [Ev [Fo Er]]]]]]].
    + cbn [size_of_kind] in L1, L2. unfold array_footprint in L1, L2.
      destruct (array_set_text_Ok t len f 0 (off - base1) s vals us b1 Rn Fo) as [c1 [E1 S1]]; try lia.
      destruct (array_set_text_Ok t len f 0 (off - base2) s vals us b2 Rn Fo) as [c2 [E2 S2]]; try lia.
      rewrite E1 in H1. rewrite E2 in H2. inversion H1; inversion H2; subst. split; auto. intros _. unfold array_access_get. cbn [array_index obind]. unfold array_get_text. f_equal.
      cbn [Nat.mul] in S1, S2. rewrite Nat.add_0_r in S1, S2. apply (cells_read t g (List.length vals) us); [symmetry; apply (Forall2_len _ _ _ _ _ Fo)|apply S1|apply S2].
    + subst vals. cbn [size_of_kind] in L1, L2. unfold array_footprint in L1, L2.
      destruct (array_set_text_refused t len f 0 (off - base1) s good us v rest b1 Rn Fo Er) as [c1 [E1 _]]; try lia.
      destruct (array_set_text_refused t len f 0 (off - base2) s good us v rest b2 Rn Fo Er) as [c2 [E2 _]]; try lia.
      rewrite E1 in H1. rewrite E2 in H2. inversion H1; inversion H2; subst. split; [auto|discriminate].
  - cbn [size_of_kind] in L1, L2. unfold string_size in L1, L2. destruct (string_set_spec max s (off - base1) b1 L1) as [A1 B1]. destruct (string_set_spec max s (off - base2) b2 L2) as [A2 B2].
    destruct (le_lt_dec (List.length s) max) as [L|L].
    + destruct (A1 L) as [c1 [E1 _]]. destruct (A2 L) as [c2 [E2 _]]. rewrite E1 in H1. rewrite E2 in H2. cbn [committed] in H1, H2. inversion H1; inversion H2; subst. split; auto. intros _.
      destruct (first_zero s) as [N|[a [r [-> N]]]].
      * rewrite (string_set_get _ _ _ _ _ N E1), (string_set_get _ _ _ _ _ N E2). auto.
      * rewrite (string_set_get_cut _ _ _ _ _ _ N E1), (string_set_get_cut _ _ _ _ _ _ N E2). auto.
    + rewrite (B1 L) in H1. rewrite (B2 L) in H2. cbn [committed] in H1, H2. inversion H1; inversion H2; subst. split; [auto|discriminate].
Qed.

Lemma edit_effect : forall y m dn cn path v q e d c b m', system_ok y -> mgr_ok y m -> locate (sy_root y) path = Some q -> param_at (sy_root y) q e ->
  ds_find dn (mg_doms m) = Some d -> dm_find cn d = Some c -> covers d q -> step y m (CSetConfigParameter dn cn path v) = Ok (b, m') ->
  exists a ok bb d' c', In a (cf_areas c) /\ above (ar_pos a) q
    /\ access_set (sy_root y) (mg_fmt m) path v (offset (sy_root y) (ar_pos a)) (ar_bb a) = Ok (ok, bb)
    /\ ds_find dn (mg_doms m') = Some d' /\ dm_find cn d' = Some c' /\ dm_elems d' = dm_elems d /\ dm_last d' = dm_last d /\ cf_id c' = cf_id c
    /\ cf_areas c' = map (fun k => if pos_eqb (ar_pos k) (ar_pos a) then Area (ar_pos k) bb (ar_valid k) else k) (cf_areas c)
    /\ ((ok = true /\ is_last d c = true /\ set_live y path v (with_doms m (mg_doms m')) = Ok (b, m'))
        \/ ((ok = false \/ is_last d c = false) /\ b = ok /\ m' = with_doms m (mg_doms m'))).
Proof.
  intros y m dn cn path v q e d c b m' Sy K P Hq Fd Fc Cv H. destruct (recorded_area_any y m dn cn path q e d c Sy K P Hq Fd Fc Cv) as [a [Ha [Ab [F [Fb _]]]]].
  cbn [step] in H. unfold set_recorded in H. rewrite P, F, Fb in H.
  destruct (access_set _ _ path v _ (ar_bb a)) as [[ok bb]| | |] eqn:Ea; try discriminate. cbn [obind fst snd] in H.
  destruct (ds_edit dn cn (ar_pos a) bb (mg_doms m)) as [[b2 s]| | |] eqn:Ed; try discriminate. cbn [obind fst snd] in H. unfold ds_edit in Ed.
  assert (mg_doms m' = s) as Em.
  { destruct ok; [|inversion H; subst; auto]. destruct (is_last d c); [|inversion H; subst; auto]. destruct (set_live_inv _ _ _ _ _ _ H) as [X _]. exact X. }
  destruct (ds_on_cases _ _ _ _ _ Ed) as [[C _]|[l1 [d0 [l2 [d' [E1 [E2 [E3 [E4 Es]]]]]]]]]; [congruence|]. assert (d0 = d) as -> by congruence.
  destruct (dm_on_config_cases _ _ _ _ _ E4) as [[C _]|[k1 [c0 [k2 [c' [I1 [I2 [I3 [I4 I5]]]]]]]]]; [congruence|]. assert (c0 = c) as -> by congruence. inversion I4; subst b2 c'.
  exists a, ok, bb, d', (cf_edit (ar_pos a) bb c). split; auto. split; auto. split; auto. split; [|split; [|split; [|split; [|split; [|split]]]]]; try (subst d'; reflexivity); auto.
  - rewrite Em, Es. unfold ds_find. cbn [ds_list]. apply find_mid_here; [intros k Hk; apply str_neqb; auto|]. apply str_eqb_eq. subst d'. apply (ds_found_name _ _ _ E1).
  - subst d'. unfold dm_find. cbn [dm_configs with_configs]. apply find_mid_here; [intros k Hk; apply str_neqb; auto|]. apply str_eqb_eq. apply (dm_found_name _ _ _ I1).
  - rewrite Em. destruct ok; [|right; inversion H; subst; auto]. destruct (is_last d c); [left; auto|right; inversion H; subst; auto].
Qed.

(** What a write of the main memory leaves alone. *)
Lemma set_live_frame : forall y path v m b m' q rest, system_ok y -> List.length (mg_main m) = footprint (sy_root y) -> param_of (sy_root y) path = Some (q, rest) ->
  set_live y path v m = Ok (b, m') -> mg_fmt m' = mg_fmt m
  /\ (exists ok, access_set (sy_root y) (mg_fmt m) path v 0 (mg_main m) = Ok (ok, mg_main m') /\ (b = true -> ok = true))
  /\ forall q2 e2, param_at (sy_root y) q2 e2 -> q2 <> q -> same_setting (sy_root y) q2 0 (mg_main m') 0 (mg_main m).
Proof.
  intros y path v m b m' q rest Sy L P H. pose proof Sy as [[W Fa] _]. unfold set_live in H. rewrite P in H. unfold write_main in H.
  destruct (access_set _ _ path v 0 (mg_main m)) as [[ok bb]| | |] eqn:Ea; try discriminate. cbn [obind fst snd] in H.
  assert (mg_main m' = bb /\ mg_fmt m' = mg_fmt m /\ (b = true -> ok = true)) as [E1 [E2 E3]].
  { destruct ok; [destruct (sync_param _ _ _ _ _); inversion H; subst; auto|inversion H; subst; auto]. }
  split; auto. split; [exists ok; rewrite E1; auto|]. intros q2 e2 Hq2 D i O. rewrite E1, !Nat.sub_0_r.
  destruct (param_of_sound _ _ _ _ P) as [e Hq]. unfold access_set in Ea. rewrite P, (proj1 Hq) in Ea.
  pose proof (param_storage_fits _ _ _ W Hq) as Fi.
  destruct (leaf_set_bits (sy_root y) q e (mg_fmt m) rest v 0 (mg_main m) ok bb W Hq) as [_ B]; auto; try lia; [rewrite (storage_size_kind e (proj2 Hq)); lia|].
  specialize (B i). unfold bits_at in B. rewrite Nat.mul_0_r, Nat.sub_0_r in B. apply B; [lia|]. intros O2. apply (owns_apart (sy_root y) q q2 i W Fa); auto. split; intros A.
  - apply D. apply (param_below y (proj1 Sy) q e Hq); auto. destruct Hq2 as [-> _]. discriminate.
  - apply D. symmetry. apply (param_below y (proj1 Sy) q2 e2 Hq2); auto. destruct Hq as [-> _]. discriminate.
Qed.

Lemma edit_frame : forall y a q e q2 e2 f v ok bb path, system_ok y -> area_ok (sy_root y) a -> above (ar_pos a) q -> locate (sy_root y) path = Some q -> param_at (sy_root y) q e ->
  param_at (sy_root y) q2 e2 -> q2 <> q -> above (ar_pos a) q2 -> access_set (sy_root y) f path v (offset (sy_root y) (ar_pos a)) (ar_bb a) = Ok (ok, bb) ->
  same_setting (sy_root y) q2 (offset (sy_root y) (ar_pos a)) (ar_bb a) (offset (sy_root y) (ar_pos a)) bb.
Proof.
  intros y a q e q2 e2 f v ok bb path Sy Ka Ab P Hq Hq2 D Ab2 Ea i O. pose proof Sy as [[W Fa] _]. destruct (locate_param _ _ _ W P) as [e' [Ee Pp]]. pose proof (proj1 Hq) as Eq. assert (e' = e) as -> by congruence. rewrite (proj2 Hq) in Pp.
  unfold access_set in Ea. rewrite Pp, Eq in Ea. destruct (area_fits _ _ _ _ W Ka Hq Ab) as [F1 F2]. destruct (area_fits _ _ _ _ W Ka Hq2 Ab2) as [G1 G2].
  destruct (leaf_set_bits (sy_root y) q e _ [] v _ _ ok bb W Hq F1 F2 Ea) as [_ B]. symmetry. apply (B i).
  - pose proof (owns_range _ _ _ _ W (proj1 Hq2) O). lia.
  - intros O2. apply (owns_apart (sy_root y) q q2 i W Fa); auto. split; intros A.
    + apply D. apply (param_below y (proj1 Sy) q e Hq); auto. destruct Hq2 as [-> _]. discriminate.
    + apply D. symmetry. apply (param_below y (proj1 Sy) q2 e2 Hq2); auto. destruct Hq as [-> _]. discriminate.
Qed.
