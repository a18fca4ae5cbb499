(** The commands of the parameter manager keep it consistent. *)
From Coq Require Import List Arith ZArith Bool Permutation Sorted Lia.
From Verif Require Import Base BaseProofs TextModel ParamTypeModel BlackboardModel BlackboardProofs BitModel BitSpec BitProofs ArrayModel ArraySpec
  ArrayProofs TreeModel TreeSpec TreeProofs MemSpec MemProofs CriterionModel RuleModel RuleProofs SyncModel SyncProofs DomainModel DomainSpec
  AreaProofs DomainProofs DomainInv DomainApply DomainsInv MgrModel MgrSpec.
Import ListNotations.
Local Open Scope nat_scope.

(** ** What a command on one domain did *)

Lemma ds_on_cases : forall n f s b s', ds_on n f s = Ok (b, s') ->
  (ds_find n s = None /\ b = false /\ s' = s)
  \/ exists l1 d l2 d', ds_find n s = Some d /\ ds_list s = l1 ++ d :: l2 /\ (forall k, In k l1 -> dm_path_name k <> n)
       /\ f d = Ok (b, d') /\ s' = Domains (l1 ++ d' :: l2) (ds_att s) (ds_fresh s).
Proof.
  intros n f s b s' H. unfold ds_on in H. destruct (ds_find n s) as [d|] eqn:E; [|left; inversion H; auto].
  right. destruct (ds_find_split n s d E) as [l1 [l2 [E1 [E2 E3]]]]. rewrite E1, upd_domain_split in H by auto.
  destruct (f d) as [[b0 d']| | |] eqn:Ef; try discriminate. cbn [obind fst snd] in H. inversion H; subst.
  exists l1, d, l2, d'. auto.
Qed.

Lemma ds_on_att_cases : forall n f s b s', ds_on_att n f s = Ok (b, s') ->
  (ds_find n s = None /\ b = false /\ s' = s)
  \/ exists l1 d l2 d' at', ds_find n s = Some d /\ ds_list s = l1 ++ d :: l2 /\ (forall k, In k l1 -> dm_path_name k <> n)
       /\ f d (ds_att s) = Ok (b, (d', at')) /\ s' = Domains (l1 ++ d' :: l2) at' (ds_fresh s).
Proof.
  intros n f s b s' H. unfold ds_on_att in H. destruct (ds_find n s) as [d|] eqn:E; [|left; inversion H; auto].
  right. destruct (ds_find_split n s d E) as [l1 [l2 [E1 [E2 E3]]]]. rewrite E1, upd_domain_split in H by auto.
  destruct (f d (ds_att s)) as [[b0 [d' at']]| | |] eqn:Ef; try discriminate. cbn [obind fst snd] in H. inversion H; subst.
  exists l1, d, l2, d', at'. auto.
Qed.

Lemma dm_on_config_cases : forall n f d b d', dm_on_config n f d = Ok (b, d') ->
  (dm_find n d = None /\ b = false /\ d' = d)
  \/ exists l1 c l2 c', dm_find n d = Some c /\ dm_configs d = l1 ++ c :: l2 /\ (forall k, In k l1 -> cf_path_name k <> n)
       /\ f c = Ok (b, c') /\ d' = with_configs d (l1 ++ c' :: l2).
Proof.
  intros n f d b d' H. unfold dm_on_config in H. destruct (dm_find n d) as [c|] eqn:E; [|left; inversion H; auto].
  right. destruct (dm_find_split n d c E) as [l1 [l2 [E1 [E2 E3]]]]. rewrite E1, upd_config_split in H by auto.
  destruct (f c) as [[b0 c']| | |] eqn:Ef; try discriminate. cbn [obind fst snd] in H. inversion H; subst.
  exists l1, c, l2, c'. auto.
Qed.

(** ** Parameters reached by their path *)

Lemma find_desc_walk : forall items e p, elem_wf e = true -> find_desc e items = Some p ->
  exists c, elem_at e p = Some c /\ walk e items = if is_param (e_kind c) then Some (p, []) else None.
Proof.
  induction items as [|nm r IH]; intros e p W H; simpl in H.
  - inversion H; subst. exists e. split; auto.
  - destruct (find_index nm (e_children e)) as [i|] eqn:Ei; [|discriminate].
    destruct (nth_error (e_children e) i) as [c|] eqn:En; [|discriminate].
    destruct (find_desc c r) as [q|] eqn:Ef; [|discriminate]. inversion H; subst.
    destruct (elem_wf_children e i c W En) as [[C Wc]|[b [t [nm0 [Ek [-> [Bw Bb]]]]]]].
    + destruct (IH c q Wc Ef) as [x [X1 X2]]. exists x. simpl. rewrite En. split; auto.
      assert (is_param (e_kind e) = false) as Np by (destruct (e_kind e); simpl in C |- *; auto; discriminate).
      rewrite Np, Ei, En, X2. destruct (is_param (e_kind x)); auto.
    + destruct r as [|nm1 r]; [|simpl in Ef; discriminate]. simpl in Ef. inversion Ef; subst. exists (Elem nm0 (KdBit t) []).
      simpl. rewrite En. split; auto. rewrite Ek. simpl. rewrite Ei, En. auto.
Qed.

Lemma locate_param : forall root path p, elem_wf root = true -> locate root path = Some p ->
  exists e, elem_at root p = Some e /\ param_of root path = if is_param (e_kind e) then Some (p, []) else None.
Proof.
  intros root path p W H. unfold locate in H. unfold param_of. destruct (path_items path) as [[|nm r]|]; try discriminate.
  destruct (str_eqb nm (e_name root)); [|discriminate]. apply find_desc_walk; auto.
Qed.

Lemma leaf_set_base : forall k f rest s off base bb, leaf_set k f rest s off base bb = leaf_set k f rest s (off - base) 0 bb.
Proof.
  intros. unfold leaf_set, array_access_set. rewrite Nat.sub_0_r. auto.
Qed.

Lemma leaf_get_base : forall k f off base bb, leaf_get k f [] off base bb = leaf_get k f [] (off - base) 0 bb.
Proof.
  intros. unfold leaf_get, array_access_get. cbn [array_index obind]. rewrite Nat.sub_0_r. auto.
Qed.

(** A write in the memory of an area. *)
Lemma access_set_area : forall root f path s p e c bb, elem_wf root = true -> locate root path = Some p ->
  above e p -> elem_at root e = Some c -> List.length bb = storage_size c ->
  exists ok bb', access_set root f path s (offset root e) bb = Ok (ok, bb') /\ List.length bb' = List.length bb
    /\ (forall x, elem_at root p = Some x ->
          forall i, i < offset root p - offset root e \/ offset root p - offset root e + storage_size x <= i -> nth_error bb' i = nth_error bb i)
    /\ (param_of root path = None -> ok = false /\ bb' = bb).
Proof.
  intros root f path s p e c bb W L A Ec Lb. destruct (locate_param root path p W L) as [x [Ex Hp]].
  unfold access_set. rewrite Hp. destruct (is_param (e_kind x)) eqn:Ip.
  - rewrite Ex, leaf_set_base. destruct (storage_above root e p c x W A Ec Ex) as [S1 S2].
    assert (param_at root p x) as Pa by (split; auto). rewrite (storage_size_kind x Ip) in S2.
    destruct (leaf_set_frame (e_kind x) f [] s (offset root p - offset root e) bb) as [ok [bb' [H1 [H2 [H3 H4]]]]].
    { apply (param_kind_wf root p); auto. } { lia. }
    exists ok, bb'. split; auto. split; auto. split; [|discriminate].
    intros x0 Ex0. inversion Ex0; subst. rewrite (storage_size_kind x0 Ip). auto.
  - exists false, bb. auto.
Qed.

(** ** Writes in the main memory *)

Lemma set_live_ok : forall y path s m, elem_wf (sy_root y) = true -> List.length (mg_main m) = footprint (sy_root y) ->
  exists b m', set_live y path s m = Ok (b, m') /\ mg_doms m' = mg_doms m /\ List.length (mg_main m') = footprint (sy_root y).
Proof.
  intros y path s m W L. unfold set_live. destruct (param_of (sy_root y) path) as [[p r]|] eqn:E; [|eauto].
  destruct (access_set_total (sy_root y) (mg_fmt m) path s (mg_main m) W L) as [ok [bb' [H1 [H2 _]]]].
  unfold write_main. rewrite H1. cbn [obind fst snd]. destruct ok.
  - destruct (sync_param y p (mg_autosync m) bb' (mg_trace m)) as [ok tr]. do 2 eexists. split; [reflexivity|]. split; auto. simpl. lia.
  - do 2 eexists. split; [reflexivity|]. split; auto. simpl. lia.
Qed.

Lemma to_bb_val_cases : forall t f v, (exists u, to_bb_val t f v = Ok u) \/ to_bb_val t f v = Err.
Proof.
  intros t f v. destruct t, v; cbn [to_bb_val]; auto.
  - unfold int_of_user. destruct (_ || _)%bool; eauto.
  - unfold int_of_user. destruct (_ || _)%bool; eauto.
  - eauto.
  - destruct (v >? 1)%Z; eauto.
  - unfold enum_of_int. destruct (negb _); auto. destruct (_ || _)%bool; eauto.
  - unfold fix_of_dbl. destruct (fix_in_range _ _ d) eqn:E; auto. unfold fix_in_range in E. destruct d; eauto; simpl in E; try destruct neg; simpl in E; discriminate.
  - unfold float_of_dbl. destruct d; auto.
    + destruct (_ && _)%bool; auto. destruct (float_in_range _ _ _); eauto.
    + destruct (float_in_range _ _ _); eauto.
Qed.

Lemma array_vals_frame : forall t f vals off bb, off + List.length vals * pt_size t <= List.length bb ->
  exists ok bb', array_set_vals t f vals off bb = Ok (ok, bb') /\ List.length bb' = List.length bb
    /\ (forall i, i < off \/ off + List.length vals * pt_size t <= i -> nth_error bb' i = nth_error bb i).
Proof.
  intros t f. induction vals as [|v r IH]; intros off bb L.
  - exists true, bb. auto.
  - cbn [array_set_vals]. destruct (to_bb_val_cases t f v) as [[u E]|E]; rewrite E; [|exists false, bb; auto].
    cbn [List.length] in L. rewrite bb_write_int_fits by lia. cbn [obind].
    destruct (IH (off + pt_size t) (overwrite bb off (le_encode (pt_size t) u))) as [ok [bb' [H1 [H2 H3]]]].
    { rewrite overwrite_length; rewrite ?le_encode_length; lia. }
    exists ok, bb'. split; auto. rewrite overwrite_length in H2 by (rewrite le_encode_length; lia). split; auto.
    intros i Hi. cbn [List.length] in Hi. rewrite H3 by lia. apply nth_error_overwrite_out; rewrite ?le_encode_length; lia.
Qed.

Lemma array_list_frame : forall t f vals off bb, off + List.length vals * pt_size t <= List.length bb ->
  exists ok bb', array_set_list t f vals off bb = Ok (ok, bb') /\ List.length bb' = List.length bb
    /\ (forall i, i < off \/ off + List.length vals * pt_size t <= i -> nth_error bb' i = nth_error bb i).
Proof.
  intros t f. induction vals as [|v r IH]; intros off bb L.
  - exists true, bb. auto.
  - cbn [array_set_list]. destruct (to_bb_str_cases t f v) as [[u E]|E]; rewrite E; [|exists false, bb; auto].
    cbn [List.length] in L. rewrite bb_write_int_fits by lia. cbn [obind].
    destruct (IH (off + pt_size t) (overwrite bb off (le_encode (pt_size t) u))) as [ok [bb' [H1 [H2 H3]]]].
    { rewrite overwrite_length; rewrite ?le_encode_length; lia. }
    exists ok, bb'. split; auto. rewrite overwrite_length in H2 by (rewrite le_encode_length; lia). split; auto.
    intros i Hi. cbn [List.length] in Hi. rewrite H3 by lia. apply nth_error_overwrite_out; rewrite ?le_encode_length; lia.
Qed.

Lemma bitparam_val_cases : forall t v off bb, bit_wf t = true -> off + bt_block t <= List.length bb ->
  bitparam_set_val t v off bb = Err
  \/ exists bb', bitparam_set_val t v off bb = Ok bb' /\ List.length bb' = List.length bb
       /\ (forall i, i < off \/ off + bt_block t <= i -> nth_error bb' i = nth_error bb i).
Proof.
  intros t v off bb Hw H.
  assert (forall z, (do data <- bb_read_int bb (bt_block t) off; do u <- bit_to_bb t z data; bb_write_int bb u (bt_block t) off) = Err
    \/ exists bb', (do data <- bb_read_int bb (bt_block t) off; do u <- bit_to_bb t z data; bb_write_int bb u (bt_block t) off) = Ok bb'
       /\ List.length bb' = List.length bb /\ (forall i, i < off \/ off + bt_block t <= i -> nth_error bb' i = nth_error bb i)) as G.
  { intros z. rewrite bb_read_int_fits by auto. cbn [obind]. unfold bit_to_bb. destruct (z >? bt_max t)%Z; cbn [obind]; auto. right.
    eexists. split; [apply bb_write_int_fits; auto|]. split.
    - apply overwrite_length. rewrite le_encode_length. auto.
    - intros i Hi. apply nth_error_overwrite_out; rewrite le_encode_length; auto. }
  unfold bitparam_set_val. destruct v; auto. destruct (bt_size t =? 1)%Z; auto.
Qed.

(** A write through a handle: only the storage of the parameter may change; a refused one changes nothing, but for arrays. *)
Lemma handle_write_frame : forall k v off bb, kind_wf k -> off + size_of_kind k <= List.length bb ->
  (hval_size v <> 0 -> hval_size v = array_length k) ->
  exists ok bb', handle_write k v off bb = Ok (ok, bb') /\ List.length bb' = List.length bb
    /\ (forall i, i < off \/ off + size_of_kind k <= i -> nth_error bb' i = nth_error bb i)
    /\ (ok = false -> is_array k = false -> bb' = bb).
Proof.
  intros k v off bb Hk Hb Hl.
  assert (exists ok bb', Ok (false, bb) = Ok (ok, bb') /\ List.length bb' = List.length bb
    /\ (forall i, i < off \/ off + size_of_kind k <= i -> nth_error bb' i = nth_error bb i)
    /\ (ok = false -> is_array k = false -> bb' = bb)) as HF by (exists false, bb; auto).
  unfold handle_write. destruct k; try contradiction; destruct v; auto; cbn [size_of_kind] in *.
  - destruct (bitparam_val_cases t v off bb Hk Hb) as [E|[bb' [E [L F]]]]; rewrite E; simpl; auto.
    exists true, bb'. repeat (split; auto). discriminate.
  - destruct (bitparam_set_str_cases t s off bb Hk Hb) as [E|[bb' E]]; rewrite E; simpl; auto.
    destruct (bit_set_any_text t s off bb bb' Hk Hb E) as [w [_ [[E1 [E2 _]] _]]].
    exists true, bb'. repeat (split; auto). discriminate.
  - unfold param_set_val. destruct (to_bb_val_cases t (Fmt false false) v) as [[u E]|E]; rewrite E; cbn [obind committed]; auto.
    rewrite bb_write_int_fits by auto. cbn [committed]. do 2 eexists. split; [reflexivity|]. split; [|split; [|discriminate]].
    + apply overwrite_length. rewrite le_encode_length. auto.
    + intros i Hi. apply nth_error_overwrite_out; rewrite le_encode_length; auto.
  - destruct (param_set_str_cases t (Fmt false false) s off bb Hb) as [E|[bb' [E [L F]]]]; rewrite E; simpl; auto.
    exists true, bb'. repeat (split; auto). discriminate.
  - unfold array_footprint in *. cbn [hval_size array_length] in Hl.
    assert (off + List.length vs * pt_size t <= List.length bb) as Hb' by (destruct (List.length vs); [lia|rewrite Hl by lia; lia]).
    destruct (array_vals_frame t (Fmt false false) vs off bb Hb') as [ok [bb' [E [L F]]]].
    exists ok, bb'. split; auto. split; auto. destruct Hk as [_ Hk]. split.
    + intros i Hi. apply F. destruct (List.length vs); [lia|]. rewrite Hl by lia. lia.
    + intros _ C. unfold is_array in C. cbn [array_length] in C. apply negb_false_iff, Nat.eqb_eq in C. lia.
  - unfold array_footprint in *. cbn [hval_size array_length] in Hl.
    assert (off + List.length ss * pt_size t <= List.length bb) as Hb' by (destruct (List.length ss); [lia|rewrite Hl by lia; lia]).
    destruct (array_list_frame t (Fmt false false) ss off bb Hb') as [ok [bb' [E [L F]]]].
    exists ok, bb'. split; auto. split; auto. destruct Hk as [_ Hk]. split.
    + intros i Hi. apply F. destruct (List.length ss); [lia|]. rewrite Hl by lia. lia.
    + intros _ C. unfold is_array in C. cbn [array_length] in C. apply negb_false_iff, Nat.eqb_eq in C. lia.
  - destruct (string_set_spec max s off bb Hb) as [H1 H2].
    destruct (Nat.le_gt_cases (List.length s) max) as [Hm|Hm].
    + destruct (H1 Hm) as [bb' [E [L [_ F]]]]. rewrite E. simpl. exists true, bb'. split; auto. split; auto.
      split; [|discriminate]. intros i Hi. apply F. unfold string_size in Hi. lia.
    + rewrite (H2 Hm). simpl. auto.
Qed.

(** What the check before a write through a handle grants. *)
Lemma check_set_spec : forall e p n at_, check_set e p n at_ = true ->
  is_param (e_kind e) = true /\ is_rogue at_ e p = true /\ (n <> 0 -> n = array_length (e_kind e)) /\ (n = 0 -> is_array (e_kind e) = false).
Proof.
  intros e p n at_ H. unfold check_set, check_get in H. apply andb_true_iff in H. destruct H as [H H3].
  apply andb_true_iff in H. destruct H as [H H2]. apply andb_true_iff in H. destruct H as [H0 H1]. split; auto. split; auto.
  apply Bool.eqb_prop in H1. apply orb_true_iff in H3. rewrite !Nat.eqb_eq in H3. split.
  - intros Hn. destruct H3; congruence.
  - intros ->. rewrite <- H1. auto.
Qed.

Lemma handle_set_ok : forall y p v m, elem_wf (sy_root y) = true -> List.length (mg_main m) = footprint (sy_root y) ->
  exists b m', handle_set y p v m = Ok (b, m') /\ mg_doms m' = mg_doms m /\ List.length (mg_main m') = footprint (sy_root y).
Proof.
  intros y p v m W L. unfold handle_set, handle_commit. destruct (elem_at (sy_root y) p) as [e|] eqn:E; [|eauto].
  destruct (check_set e p (hval_size v) (ds_att (mg_doms m))) eqn:C; [|eauto]. destruct (mg_tuning m); [eauto|].
  apply check_set_spec in C. destruct C as [C1 [_ [C2 _]]]. assert (param_at (sy_root y) p e) as P by (split; auto).
  destruct (handle_write_frame (e_kind e) v (offset (sy_root y) p) (mg_main m)) as [ok [bb [H1 [H2 _]]]]; auto.
  { apply (param_kind_wf (sy_root y) p); auto. } { rewrite L. apply param_storage_fits; auto. }
  unfold write_main. rewrite H1. cbn [obind fst snd]. destruct ok.
  - destruct (sync_param _ _ _ _ _) as [ok tr]. do 2 eexists. split; [reflexivity|]. split; auto. simpl. lia.
  - do 2 eexists. split; [reflexivity|]. split; auto. simpl. lia.
Qed.

Lemma handle_bytes_ok : forall y p bytes m, elem_wf (sy_root y) = true -> List.length (mg_main m) = footprint (sy_root y) ->
  exists b m', handle_bytes y p bytes m = Ok (b, m') /\ mg_doms m' = mg_doms m /\ List.length (mg_main m') = footprint (sy_root y).
Proof.
  intros y p bytes m W L. unfold handle_bytes, set_bytes. destruct (elem_at (sy_root y) p) as [e|] eqn:E; [|eauto].
  destruct (Nat.eqb_spec (footprint e) (List.length bytes)) as [Hl|]; [|eauto].
  assert (offset (sy_root y) p + List.length bytes <= List.length (mg_main m)) as B.
  { rewrite <- Hl, L. destruct (layout_inside_parent (sy_root y) [] p (sy_root y) e W eq_refl E) as [_ X]. cbn [app] in X. change (offset (sy_root y) []) with 0 in X. lia. }
  destruct (bb_write_contract (mg_main m) bytes (offset (sy_root y) p) B) as [bb [H1 [_ [H2 _]]]]. rewrite Nat.sub_0_r, H1.
  destruct (mg_autosync m).
  - destruct (sync_set _ _ _ _) as [[ok er] tr]. do 2 eexists. split; [reflexivity|]. split; auto. simpl. lia.
  - do 2 eexists. split; [reflexivity|]. split; auto. simpl. lia.
Qed.

(** ** The settings recorded *)

Lemma find_blackboard_spec : forall y dom name p s d c e, domains_ok y s -> ds_find_blackboard dom name p s = Some (d, c, e) ->
  ds_find dom s = Some d /\ dm_find name d = Some c /\ In e (dm_elems d) /\ above e p
  /\ exists a, In a (cf_areas c) /\ ar_pos a = e /\ cf_area_bb e c = ar_bb a.
Proof.
  intros y dom name p s d c e K H. unfold ds_find_blackboard in H. destruct (ds_find dom s) as [d0|] eqn:Ed; [|discriminate].
  destruct (belongs_to (ds_att s) p (dm_id d0)); [|discriminate]. unfold dm_find_blackboard in H.
  destruct (dm_find name d0) as [c0|] eqn:Ec; [|discriminate].
  destruct (find _ (dm_elems d0)) as [e0|] eqn:Ee; [|discriminate]. inversion H; subst. apply find_some in Ee. destruct Ee as [I X].
  split; auto. split; auto. split; auto. split.
  - apply orb_true_iff in X. destruct X as [X|X]; [apply pos_eqb_eq in X; subst; apply above_refl|apply descendant_spec in X; tauto].
  - pose proof (ds_domain _ _ K d (ds_find_In _ _ _ Ed)) as Kd. destruct (dk_configs _ _ Kd c (dm_find_In _ _ _ Ec)) as [Pm _].
    assert (In e (map ar_pos (cf_areas c))) as I2 by (eapply Permutation_in; [apply Permutation_sym; exact Pm|auto]).
    unfold cf_area_bb. destruct (find (fun a => pos_eqb (ar_pos a) e) (cf_areas c)) as [a|] eqn:Ea.
    + apply find_some in Ea. destruct Ea as [Ia Xa]. apply pos_eqb_eq in Xa. eauto.
    + apply in_map_iff in I2. destruct I2 as [a [<- Ia]]. apply (find_none _ _ Ea) in Ia. rewrite pos_eqb_refl in Ia. discriminate.
Qed.

Lemma cf_edit_ok : forall root l p bb c e, elem_at root p = Some e -> List.length bb = storage_size e -> config_ok root l c ->
  config_ok root l (cf_edit p bb c) /\ cf_id (cf_edit p bb c) = cf_id c /\ (config_valid c -> config_valid (cf_edit p bb c)).
Proof.
  intros root l p bb c e E L [P F]. split; [|split; auto].
  - split; unfold cf_edit; rewrite with_areas_areas.
    + rewrite map_map. erewrite map_ext; [exact P|]. intros a. simpl. destruct (pos_eqb (ar_pos a) p); auto.
    + rewrite Forall_forall in *. intros a' Ha. apply in_map_iff in Ha. destruct Ha as [a [<- Ha]].
      destruct (pos_eqb (ar_pos a) p) eqn:Ea; auto. apply pos_eqb_eq in Ea. exists e. simpl. rewrite Ea. auto.
  - intros V. unfold config_valid, cf_edit in *. rewrite with_areas_areas, Forall_forall in *. intros a' Ha.
    apply in_map_iff in Ha. destruct Ha as [a [<- Ha]]. destruct (pos_eqb (ar_pos a) p); simpl; auto.
Qed.

Lemma set_recorded_ok : forall y dom name path s m, structure_ok y -> mgr_ok y m ->
  exists b m', set_recorded y dom name path s m = Ok (b, m') /\ mgr_ok y m'.
Proof.
  intros y dom name path s m Hs [K [V L]]. unfold set_recorded. destruct (locate (sy_root y) path) as [p|] eqn:El; [|exists false, m; split; [reflexivity|split; auto]].
  destruct (ds_find_blackboard dom name p (mg_doms m)) as [[[d c] e]|] eqn:Ef; [|exists false, m; split; [reflexivity|split; auto]].
  destruct (find_blackboard_spec y dom name p _ d c e K Ef) as [F1 [F2 [F3 [F4 [a [A1 [A2 A3]]]]]]].
  pose proof (ds_domain _ _ K d (ds_find_In _ _ _ F1)) as Kd. destruct (dk_configs _ _ Kd c (dm_find_In _ _ _ F2)) as [Pm Fa].
  rewrite Forall_forall in Fa. destruct (Fa a A1) as [x [X1 X2]]. rewrite A2 in X1.
  destruct (access_set_area (sy_root y) (mg_fmt m) path s p e x (ar_bb a)) as [ok [bb [B1 [B2 _]]]]; auto; [apply Hs|].
  rewrite A3, B1. cbn [obind fst snd]. unfold ds_edit.
  destruct (ds_on_config_ok y dom name (fun c => Ok (true, cf_edit e bb c)) (mg_doms m) K) as [b [s' [E1 [E2 E3]]]].
  { intros l k Hk. do 2 eexists. split; [reflexivity|]. destruct (cf_edit_ok (sy_root y) l e bb k x X1) as [Q1 [Q2 Q3]]; auto. congruence. }
  rewrite E1. cbn [obind fst snd]. destruct ok.
  - destruct (is_last d c).
    + destruct (set_live_ok y path s (with_doms m s')) as [b2 [m2 [G1 [G2 G3]]]]; [apply Hs|auto|]. exists b2, m2. split; auto.
      split; [|split]; auto; rewrite G2; simpl; auto.
    + do 2 eexists. split; [reflexivity|]. split; [|split]; simpl; auto.
  - do 2 eexists. split; [reflexivity|]. split; [|split]; simpl; auto.
Qed.

(** ** Application of configurations *)

Lemma resync_sorted : forall y need, StronglySorted lt (resync_syncers y need).
Proof.
  intros y need. unfold resync_syncers. assert (forall l ss, StronglySorted lt ss ->
    StronglySorted lt (fold_left (fun ss i => if existsb (Nat.eqb i) need then fill_syncer_set y [i] ss else ss) l ss)) as G.
  { induction l as [|i l IH]; intros ss Hs; simpl; auto. apply IH. destruct (existsb (Nat.eqb i) need); auto.
    unfold fill_syncer_set. destruct (get_syncer y [i]); [apply set_add_sorted; auto|].
    destruct (elem_at (sy_root y) [i]); auto. apply fill_desc_sorted. auto. }
  apply G. constructor.
Qed.

Lemma do_apply_ok : forall y force need m, structure_ok y -> mgr_ok y m ->
  exists m', do_apply y force need m = Ok m' /\ mgr_ok y m'.
Proof.
  intros y force need m Hs [K [V L]]. unfold do_apply.
  destruct (ds_apply_spec y (mg_crits m) force (resync_syncers y need) (mg_doms m) (mg_main m) (mg_trace m) Hs K L (resync_sorted y need))
    as [mid [m2 [col [e1 [e2 [E _]]]]]].
  destruct (ds_apply_ok _ _ _ _ _ _ _ _ _ _ Hs K L (resync_sorted y need) E) as [A1 [A2 A3]].
  rewrite E. cbn [obind]. eexists. split; [reflexivity|]. split; [|split]; simpl; auto.
Qed.

(** ** Every command *)

Lemma on_doms_ok : forall y m o, mgr_ok y m -> (exists b s', o = Ok (b, s') /\ domains_ok y s' /\ (all_valid (mg_doms m) -> all_valid s')) ->
  exists b m', on_doms m o = Ok (b, m') /\ mgr_ok y m'.
Proof.
  intros y m o [K [V L]] [b [s' [-> [H1 H2]]]]. unfold on_doms. cbn [obind fst snd]. do 2 eexists. split; [reflexivity|].
  split; [|split]; simpl; auto.
Qed.

Lemma on_doms_ok2 : forall y m b s, mgr_ok y m -> domains_ok y s /\ (all_valid (mg_doms m) -> all_valid s) ->
  exists b' m', on_doms m (Ok (b, s)) = Ok (b', m') /\ mgr_ok y m'.
Proof. intros y m b s K [H1 H2]. apply on_doms_ok; auto. eauto. Qed.

Lemma tuned_ok : forall y m k, mgr_ok y m -> (exists b m', k = Ok (b, m') /\ mgr_ok y m') ->
  exists b m', tuned m k = Ok (b, m') /\ mgr_ok y m'.
Proof. intros y m k K H. unfold tuned. destruct (mg_tuning m); eauto. Qed.

Lemma step_ok : forall y m c, system_ok y -> mgr_ok y m ->
  (exists b m', step y m c = Ok (b, m') /\ mgr_ok y m')
  \/ (step y m c = Abort /\ exists d n t, c = CSetRule d n t).
Proof.
  intros y m c [Hs O] M. pose proof M as [K [V L]]. pose proof (proj1 Hs) as W.
  assert (forall dom path, exists b m', tuned m (on_located y path m (fun p => ds_add y dom p (mg_main m) (mg_doms m))) = Ok (b, m') /\ mgr_ok y m') as HA.
  { intros dom path. apply tuned_ok; auto. unfold on_located. destruct (locate (sy_root y) path) as [p|] eqn:E; [|eauto].
    apply on_doms_ok; auto. apply ds_add_ok; auto. apply (locate_sound _ _ _ E). }
  destruct c; cbn [step]; try (left; fail).
  - left. apply tuned_ok; auto. destruct (set_live_ok y path value m W L) as [b [m' [E [E1 E2]]]]. exists b, m'. split; auto.
    split; [|split]; auto; rewrite E1; auto.
  - left. apply set_recorded_ok; auto.
  - left. unfold set_tuning. destruct (Bool.eqb on (mg_tuning m)); [eauto|]. destruct (on && negb (mg_allowed m)); [eauto|].
    destruct on; [do 2 eexists; split; [reflexivity|exact M]|].
    destruct (do_apply_ok y true need m Hs M) as [m' [E Em]]. rewrite E. cbn [obind]. do 2 eexists. split; [reflexivity|]. exact Em.
  - left. unfold set_autosync, do_sync. destruct (on && negb (mg_autosync m)); [|do 2 eexists; split; [reflexivity|exact M]].
    destruct (mg_autosync m); [do 2 eexists; split; [reflexivity|exact M]|].
    destruct (sync_set _ _ _ _) as [[ok er] tr]. destruct ok; do 2 eexists; split; [reflexivity|exact M|reflexivity|exact M].
  - left. unfold do_sync. destruct (mg_autosync m); [do 2 eexists; split; [reflexivity|exact M]|].
    destruct (sync_set _ _ _ _) as [[ok er] tr]. do 2 eexists. split; [reflexivity|exact M].
  - left. do 2 eexists. split; [reflexivity|exact M].
  - left. do 2 eexists. split; [reflexivity|exact M].
  - left. apply tuned_ok; auto. destruct (ds_create name (mg_doms m)) as [b s] eqn:E. apply on_doms_ok2; auto. eapply ds_create_ok; eauto.
  - left. apply tuned_ok; auto. destruct (ds_delete name (mg_doms m)) as [b s] eqn:E. apply on_doms_ok2; auto. eapply ds_delete_ok; eauto.
  - left. apply tuned_ok; auto. apply on_doms_ok2; auto. destruct (ds_delete_all_ok y (mg_doms m) K). auto.
  - left. destruct (ds_rename name new (mg_doms m)) as [b s] eqn:E. apply on_doms_ok2; auto. eapply ds_rename_ok; eauto.
  - left. apply tuned_ok; auto. apply on_doms_ok; auto. apply ds_set_aware_ok; auto.
  - left. apply tuned_ok; auto. apply on_doms_ok; auto. apply ds_create_config_ok; auto.
  - left. apply tuned_ok; auto. apply on_doms_ok; auto. apply ds_delete_config_ok; auto.
  - left. apply on_doms_ok; auto. apply ds_rename_config_ok; auto.
  - left. apply tuned_ok; auto.
    destruct (ds_restore_spec y dom conf (mg_autosync m) (mg_doms m) (mg_main m) (mg_trace m) Hs K L) as [b [s' [bb [er [tr [E [E1 [E2 [E3 _]]]]]]]]].
    rewrite E. cbn [obind]. do 2 eexists. split; [reflexivity|]. split; [|split]; simpl; auto.
  - left. apply tuned_ok; auto. apply on_doms_ok; auto. apply ds_save_ok; auto.
  - left. apply HA.
  - left. apply tuned_ok; auto. unfold on_located. destruct (locate (sy_root y) path) as [p|] eqn:E; [|eauto].
    apply on_doms_ok; auto. apply ds_remove_ok; auto.
  - left. apply tuned_ok; auto. unfold on_located. destruct (locate (sy_root y) path) as [p|] eqn:E; [|eauto].
    apply on_doms_ok; auto. apply ds_split_ok; auto.
  - left. apply tuned_ok; auto. apply on_doms_ok; auto. apply ds_set_sequence_ok; auto.
  - unfold on_doms. destruct (ds_set_rule (mg_crits m) dom conf text (mg_doms m)) as [[b s']| | |] eqn:E.
    + left. cbn [obind fst snd]. do 2 eexists. split; [reflexivity|].
      unfold ds_set_rule in E. destruct (ds_on_cases _ _ _ _ _ E) as [[_ [_ ->]]|[l1 [d [l2 [d' [F1 [F2 [F3 [F4 F5]]]]]]]]]; [exact M|].
      unfold dm_set_rule in F4. destruct (dm_on_config_cases _ _ _ _ _ F4) as [[_ [_ ->]]|[k1 [c [k2 [c' [G1 [G2 [G3 [G4 G5]]]]]]]]].
      * rewrite <- F2 in F5. destruct (mg_doms m); simpl in *; subst. split; [|split]; auto.
      * destruct (set_application_rule (mg_crits m) text (cf_rule c)) as [[b0 r]| | |] eqn:Er; try discriminate. cbn [obind fst snd] in G4. inversion G4; subst.
        pose proof (ds_domain _ _ K d (ds_find_In _ _ _ F1)) as Kd.
        assert (domain_ok y (with_configs d (k1 ++ with_rule c r :: k2))) as Kd'.
        { apply (replace_config_ok y d k1 c k2 (with_rule c r)); auto; try (split; auto; fail); apply (dk_configs _ _ Kd c); eapply dm_find_In; eauto. }
        split; [|split]; simpl; auto.
        -- apply (replace_domain_ok y (mg_doms m) l1 d l2); auto; [|tauto|apply (ds_att_once _ _ K)].
           intros q. apply (ds_link y (mg_doms m) d K). eapply ds_find_In; eauto.
        -- apply (replace_all_valid (mg_doms m) l1 d l2); auto. apply (replace_valid d _ k1 c (with_rule c r) k2); auto.
    + exfalso. unfold ds_set_rule, ds_on in E. destruct (ds_find dom (mg_doms m)) as [d|] eqn:Ed; [|discriminate].
      destruct (ds_find_split _ _ _ Ed) as [l1 [l2 [E1 [E2 E3]]]]. rewrite E1, upd_domain_split in E by auto.
      unfold dm_set_rule, dm_on_config in E. destruct (dm_find conf d) as [c|] eqn:Ec; [|discriminate].
      destruct (dm_find_split _ _ _ Ec) as [k1 [k2 [G1 [G2 G3]]]]. rewrite G1, upd_config_split in E by auto.
      destruct (set_rule_cases (mg_crits m) text (cf_rule c)) as [X|[X|[r [_ X]]]]; rewrite X in E; discriminate.
    + right. split; auto. eauto.
    + exfalso. unfold ds_set_rule, ds_on in E. destruct (ds_find dom (mg_doms m)) as [d|] eqn:Ed; [|discriminate].
      destruct (ds_find_split _ _ _ Ed) as [l1 [l2 [E1 [E2 E3]]]]. rewrite E1, upd_domain_split in E by auto.
      unfold dm_set_rule, dm_on_config in E. destruct (dm_find conf d) as [c|] eqn:Ec; [|discriminate].
      destruct (dm_find_split _ _ _ Ec) as [k1 [k2 [G1 [G2 G3]]]]. rewrite G1, upd_config_split in E by auto.
      destruct (set_rule_cases (mg_crits m) text (cf_rule c)) as [X|[X|[r [_ X]]]]; rewrite X in E; discriminate.
  - left. apply on_doms_ok; auto. apply ds_clear_rule_ok; auto.
  - left. unfold apply_configurations. destruct (mg_tuning m); [do 2 eexists; split; [reflexivity|exact M]|].
    destruct (do_apply_ok y false need m Hs M) as [m' [E Em]]. rewrite E. cbn [obind]. eauto.
  - left. do 2 eexists. split; [reflexivity|exact M].
  - left. destruct (handle_set_ok y p v m W L) as [b [m' [E [E1 E2]]]]. exists b, m'. split; auto. split; [|split]; auto; rewrite E1; auto.
  - left. destruct (handle_bytes_ok y p bytes m W L) as [b [m' [E [E1 E2]]]]. exists b, m'. split; auto. split; [|split]; auto; rewrite E1; auto.
Qed.

Lemma run_ok : forall y cs m, system_ok y -> mgr_ok y m ->
  (exists bs m', run y m cs = Ok (bs, m') /\ List.length bs = List.length cs /\ mgr_ok y m') \/ run y m cs = Abort.
Proof.
  intros y cs. induction cs as [|c cs IH]; intros m Hs M.
  - left. exists [], m. auto.
  - cbn [run]. destruct (step_ok y m c Hs M) as [[b [m' [E M']]]|[E _]]; rewrite E; cbn [obind fst snd]; auto.
    destruct (IH m' Hs M') as [[bs [m2 [E2 [L2 M2]]]]|E2]; rewrite E2; cbn [obind fst snd]; auto.
    left. exists (b :: bs), m2. simpl. auto.
Qed.

Lemma run_app : forall y cs1 cs2 m, run y m (cs1 ++ cs2) =
  do x <- run y m cs1; do z <- run y (snd x) cs2; Ok (fst x ++ fst z, snd z).
Proof.
  intros y cs1. induction cs1 as [|c cs1 IH]; intros cs2 m; cbn [run app].
  - cbn [obind fst snd]. destruct (run y m cs2) as [[a b]| | |]; auto.
  - destruct (step y m c) as [[b m']| | |]; auto. cbn [obind fst snd]. rewrite IH.
    destruct (run y m' cs1) as [[bs m1]| | |]; auto. cbn [obind fst snd]. destruct (run y m1 cs2) as [[b2 m2]| | |]; auto.
Qed.

