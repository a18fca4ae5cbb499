(** Reading never goes wrong in a framework whose strings are terminated. *)
From Coq Require Import List Arith ZArith Bool Ascii Lia.
From Verif Require Import Base BaseProofs TextModel ParamTypeModel ParamTypeSpec BlackboardModel BlackboardProofs BitModel ArrayModel ArraySpec ArrayProofs TreeModel TreeSpec TreeProofs SyncModel DomainModel
  DomainSpec DomainInv DomainProofs MgrModel MgrSpec MgrProofs MgrFlow MgrSkel ValueSpec ValueProofs ReadProofs ConfigProofs ConfigProofs2 CommandModel CommandSpec.
Import ListNotations.
Local Open Scope nat_scope.

Definition quiet (o : outcome str) : Prop := o <> UB /\ o <> Abort.

Lemma quiet_ok : forall s, quiet (Ok s).
Proof. split; discriminate. Qed.
Lemma quiet_err : quiet Err.
Proof. split; discriminate. Qed.

Lemma param_get_quiet : forall t f off bb, printable f t -> off + pt_size t <= List.length bb -> exists s, param_get_str t f off bb = Ok s.
Proof.
  intros t f off bb Pr L. unfold param_get_str. rewrite bb_read_int_fits by auto. cbn [obind]. destruct t as [sg b lo hi| |b ps|b n m|a b]; cbn [from_bb_str]; eauto.
  unfold enum_to_str. destruct (f_raw f) eqn:R; [|destruct (enum_literal _ _); eauto]. destruct (f_hex f) eqn:X; eauto. unfold make_encodable.
  rewrite (proj2 (Nat.ltb_lt _ _) (Pr R X b ps eq_refl)). cbn. eauto.
Qed.

Lemma array_get_quiet : forall t f n off bb, printable f t -> off + n * pt_size t <= List.length bb -> exists l, array_get_list t f n off bb = Ok l.
Proof.
  intros t f n. induction n as [|n IH]; intros off bb Pr L; cbn [array_get_list]; eauto. destruct (param_get_quiet t f off bb Pr) as [s ->]; [lia|]. cbn [obind].
  destruct (IH (off + pt_size t) bb Pr) as [l ->]; [lia|]. cbn [obind]. eauto.
Qed.

Lemma leaf_get_quiet : forall k f rest off base bb, kind_wf k -> kind_printable f k -> off - base + size_of_kind k <= List.length bb -> (rest = [] \/ base = 0) ->
  (forall max, k = KdString max -> terminated max (off - base) bb) -> quiet (leaf_get k f rest off base bb).
Proof.
  intros k f rest off base bb W Pr L B T. unfold leaf_get. destruct k; try (destruct rest; apply quiet_err).
  - destruct rest; [|apply quiet_err]. unfold bitparam_get_str. rewrite bb_read_int_fits by (simpl in L; lia). cbn [obind]. apply quiet_ok.
  - destruct rest; [|apply quiet_err]. destruct (param_get_quiet t f (off - base) bb Pr L) as [s ->]. apply quiet_ok.
  - unfold array_access_get. simpl in L. unfold array_footprint in L. unfold array_index. destruct rest as [|it more]; cbn [obind].
    + unfold array_get_text. destruct (array_get_quiet t f len (off - base) bb Pr) as [l ->]; [nia|]. apply quiet_ok.
    + destruct (stream_int 10 t_uint64 it) as [[v r]|]; [|apply quiet_err]. destruct (Z.leb_spec (Z.of_nat len) v); [apply quiet_err|]. destruct more; [|apply quiet_err]. cbn [obind].
      destruct B as [B| ->]; [discriminate|]. destruct (param_get_quiet t f (off + Z.to_nat v * pt_size t) bb Pr) as [s ->]; [|apply quiet_ok].
      destruct W as [_ W]. assert (Z.to_nat v < len) by lia. rewrite Nat.sub_0_r in L. nia.
  - destruct rest; [|apply quiet_err]. destruct (string_get_terminated max (off - base) bb (T max eq_refl)) as [s [E _]]. rewrite E. apply quiet_ok.
Qed.

Lemma get_parameter_quiet : forall y m path, system_ok y -> reachable_typed y m -> all_printable y (mg_fmt m) -> quiet (get_parameter y path m).
Proof.
  intros y m path Sy R Pr. pose proof (proj1 (proj1 Sy)) as W. pose proof (reachable_ok y m Sy (typed_reachable y m R)) as [[K [V L]] _]. unfold get_parameter, access_get.
  destruct (param_of (sy_root y) path) as [[p rest]|] eqn:E; [|apply quiet_err]. destruct (param_of_sound _ _ _ _ E) as [e He]. rewrite (proj1 He).
  apply leaf_get_quiet; auto.
  - apply (param_kind_wf _ _ _ W He).
  - apply (Pr p). auto.
  - rewrite Nat.sub_0_r, L. apply param_storage_fits; auto.
  - intros max Km. rewrite Nat.sub_0_r. pose proof (typed_valued y m p e max Sy R He Km) as [Vm _]. rewrite Km in Vm. exact Vm.
Qed.

Lemma ds_find_in : forall n s d, ds_find n s = Some d -> In d (ds_list s).
Proof. intros n s d H. unfold ds_find in H. apply find_some in H. tauto. Qed.

Lemma get_recorded_quiet : forall y m dn cn path, system_ok y -> reachable_typed y m -> all_printable y (mg_fmt m) -> quiet (get_recorded y dn cn path m).
Proof.
  intros y m dn cn path Sy R Pr. pose proof (proj1 (proj1 Sy)) as W. pose proof (reachable_ok y m Sy (typed_reachable y m R)) as [[K [V L]] _]. unfold get_recorded.
  destruct (locate (sy_root y) path) as [p|] eqn:El; [|apply quiet_err]. destruct (ds_find_blackboard dn cn p (mg_doms m)) as [[[d c] x]|] eqn:Ef; [|apply quiet_err].
  destruct (find_blackboard_spec y dn cn p _ d c x K Ef) as [F1 [F2 [F3 [F4 [a [A1 [A2 A3]]]]]]]. rewrite A3.
  assert (quiet (access_get (sy_root y) (mg_fmt m) path (offset (sy_root y) x) (ar_bb a))) as Q.
  { destruct (locate_param _ _ _ W El) as [e [Ee Pp]]. unfold access_get. rewrite Pp. destruct (is_param (e_kind e)) eqn:Ip; [|apply quiet_err]. rewrite Ee. assert (param_at (sy_root y) p e) as Pa by (split; auto).
    pose proof (ds_domain _ _ K d (ds_find_in _ _ _ F1)) as Kd. destruct (dk_configs _ _ Kd c (dm_find_In _ _ _ F2)) as [_ Fa]. rewrite Forall_forall in Fa. rewrite <- A2 in F4.
    destruct (area_fits _ _ _ _ W (Fa a A1) Pa F4) as [G1 G2]. rewrite (storage_size_kind e Ip) in G2. rewrite <- A2.
    apply leaf_get_quiet; [apply (param_kind_wf _ _ _ W Pa)|apply (Pr p); auto|lia|left; auto|].
    intros max Km. apply (typed_recorded_strings y m d c a p e max); auto. apply (ds_find_in _ _ _ F1). apply (dm_find_In _ _ _ F2). }
  destruct (access_get _ _ _ _ _) as [v| | |] eqn:Ea; cbn [obind]; [|apply quiet_err|destruct Q; congruence|destruct Q; congruence].
  destruct (is_last d c); [|apply quiet_ok]. apply get_parameter_quiet; auto.
Qed.

Lemma answered_quiet : forall o, quiet o -> exists x, answered o = Ok x.
Proof. intros [s| | |] [H1 H2]; simpl; eauto; congruence. Qed.

Lemma ask_total : forall y ev q m, system_ok y -> reachable_typed y m -> all_printable y (mg_fmt m) -> exists o, ask y ev q m = Ok o.
Proof.
  intros y ev q m Sy R Pr. destruct q; cbn [ask]; unfold found; eauto using answered_quiet, get_parameter_quiet, get_recorded_quiet.
  destruct (locate (sy_root y) path) as [p|] eqn:E; eauto. pose proof (proj1 (proj1 Sy)) as W. pose proof (reachable_ok y m Sy (typed_reachable y m R)) as [[K [V L]] _].
  destruct (locate_param _ _ _ W E) as [e [Ee _]]. destruct (get_set_bytes (sy_root y) p e (mg_main m) W L Ee) as [bytes [-> _]]. cbn. eauto.
Qed.
