(** What a client of the C interface can rely on (C68). *)
From Coq Require Import List Arith ZArith Bool Ascii String Lia.
From Verif Require Import Base BaseProofs TextModel ParamTypeModel ParamTypeSpec BlackboardModel BlackboardProofs BitModel ArrayModel ArraySpec ArrayProofs IntProofs TreeModel TreeSpec TreeProofs MemSpec
  MemProofs CriterionModel CriterionSpec CriterionProofs SyncModel SyncProofs DomainModel DomainSpec MgrModel MgrSpec MgrProofs MgrSkel ValueSpec ValueProofs MgrProps ApplyMore LoadModel LoadSpec LoadProps CommandSpec
  CommandProofs CapiModel CapiSpec CapiProofs Demo.
Import ListNotations.
Local Open Scope nat_scope.

(** ** Start *)

Lemma name_inv_nil : name_inv [] [].
Proof. split; [constructor|reflexivity]. Qed.

(** A start is refused when the criteria cannot all be made, whatever the files. *)
Theorem C68_start_refused : forall f cs, countable cs -> ~ all_makeable cs -> exists h, call c_new (KStart f cs) = Ok (AFailed, h).
Proof.
  intros f cs Co N. cbn [call]. unfold c_start. cbn [ch_pfw ch_names c_new]. destruct (create_spec cs [] [] Co name_inv_nil) as [ok [names [made [E [I1 _]]]]]. rewrite E. cbn [obind].
  destruct ok; [|cbn [load_instance obind fst snd in_started status]; eauto]. exfalso. apply N. destruct I1 as [I1 _]. specialize (I1 eq_refl). split; tauto.
Qed.
Print Assumptions C68_start_refused.

(** A start with criteria that can be made and good files succeeds: the framework is started, its criteria are those described, in
    this order, and each has the value 0; the other names are unknown. *)
Theorem C68_start : forall y f cs, good_files y cs f -> countable cs -> all_makeable cs ->
  exists m h, call c_new (KStart f cs) = Ok (ADone, h) /\ running y m h /\ started y m /\ Forall2 described cs (mg_crits m)
    /\ forall n, (In (Some n) (map cc_name cs) -> call h (KGetCriterion n) = Ok (AInt 0, h))
              /\ (~ In (Some n) (map cc_name cs) -> call h (KGetCriterion n) = Ok (AFailed, h)).
Proof.
  intros y f cs [Sy G] Co [M1 M2]. destruct (create_spec cs [] [] Co name_inv_nil) as [ok [names [made [E [I1 [I2 [I3 I4]]]]]]].
  assert (ok = true) as -> by (apply I1; split; auto). specialize (I2 eq_refl). rewrite app_nil_l in E.
  destruct (G made I2 I3) as [given [al [s [F [A L]]]]].
  destruct (start_up_inv y given al made s Sy A L) as [bb [m [_ [H2 [H3 H4]]]]].
  pose proof (proj1 (create_inv _ _ _ _ _ _ E name_inv_nil)) as Ni.
  pose proof (start_up_crits _ _ _ _ _ _ H4) as Cr.
  exists m, (CHandle (Some (Inst y m true)) names).
  assert (call c_new (KStart f cs) = Ok (ADone, CHandle (Some (Inst y m true)) names)) as C.
  { cbn [call]. unfold c_start. cbn [ch_pfw ch_names c_new]. rewrite E. cbn [obind]. rewrite F. cbn [load_instance]. rewrite H4. reflexivity. }
  split; auto. split; [reflexivity|]. split; [exists al, made, s, bb; auto|]. split.
  - rewrite Cr. clear -I2. unfold crits_reset. induction I2; constructor; auto.
  - intros n. assert (In (Some n) (map cc_name cs) <-> In n (map cr_name made)) as W.
    { clear -I2. induction I2 as [|c k cs ks [H _] _ IH]; simpl; [tauto|]. rewrite IH, H. split; intros [X|X]; auto; left; congruence. }
    split; intros X.
    + apply W in X. apply holds_get. apply In_nth_error in X. destruct X as [j X]. rewrite nth_error_map in X. destruct (nth_error made j) as [k|] eqn:K; [|discriminate]. inversion X; subst.
      destruct (reset_state_nth _ _ _ K) as [k' [K1 K2]]. exists (Inst y m true), j, k'. split; auto. split; [apply (name_inv_find _ _ _ _ Ni); eauto|]. cbn [in_mgr]. rewrite Cr. split; auto.
      rewrite K2. rewrite Forall_forall in I4. apply I4. apply nth_error_In in K. auto.
    + cbn [call ch_pfw ch_names]. rewrite (proj2 (name_inv_none _ _ n Ni)); auto. tauto.
Qed.
Print Assumptions C68_start.

(** Before the first start every call fails and leaves the handle as it is. *)
Theorem C68_before_start : forall ks, (forall f cs, ~ In (KStart f cs) ks) -> calls c_new ks = Ok (map (fun _ => AFailed) ks, c_new).
Proof.
  induction ks as [|k ks IH]; intros N; [reflexivity|]. cbn [calls map].
  assert (call c_new k = Ok (AFailed, c_new)) as E by (destruct k; try reflexivity; exfalso; eapply N; left; reflexivity). rewrite E. cbn [obind fst snd].
  rewrite IH; [reflexivity|]. intros f cs H. apply (N f cs). right. auto.
Qed.
Print Assumptions C68_before_start.

(** ** Sessions *)

Lemma fits_read : forall y m p e, system_ok y -> reachable_typed y m -> param_at (sy_root y) p e -> offset (sy_root y) p + size_of_kind (e_kind e) <= List.length (mg_main m).
Proof.
  intros y m p e Sy R He. pose proof (reachable_ok y m Sy (typed_reachable y m R)) as [[_ [_ L]] _]. rewrite L. apply param_storage_fits; auto. apply (proj1 (proj1 Sy)).
Qed.

Lemma read_answers : forall y m h p e k, system_ok y -> reachable_typed y m -> running y m h -> param_at (sy_root y) p e -> (k = HKVal KInt \/ k = HKStr) ->
  exists a, c_read h (Inst y m true) p k = Ok (a, h).
Proof.
  intros y m h p e k Sy R _ He Hk. pose proof (fits_read y m p e Sy R He) as Ft. unfold c_read. cbn [in_sys in_mgr]. unfold handle_get. rewrite (proj1 He).
  destruct (check_get (e_kind e) (hkind_array k)); [|eauto].
  assert ((exists v, handle_read (e_kind e) k (offset (sy_root y) p) (mg_main m) = Ok v) \/ handle_read (e_kind e) k (offset (sy_root y) p) (mg_main m) = Err) as [[v ->]| ->]; [| |eauto].
  - destruct Hk as [->| ->]; destruct (e_kind e) as [| | | | |t|t|t len|max] eqn:Ek; cbn [handle_read]; auto.
    + cbn [size_of_kind] in Ft. unfold param_get_val. rewrite bb_read_int_fits by auto. cbn [obind]. destruct t; cbn [from_bb_val omap obind]; eauto.
    + cbn [size_of_kind] in Ft. left. unfold bitparam_get_str. rewrite bb_read_int_fits by (simpl in Ft; lia). cbn [obind omap]. eauto.
    + left. destruct (param_get_quiet t (Fmt false false) (offset (sy_root y) p) (mg_main m)) as [s ->]; [intros X; discriminate X|exact Ft|]. cbn [obind omap]. eauto.
    + left. pose proof (typed_valued y m p e max Sy R He Ek) as [Vm _]. rewrite Ek in Vm. destruct (string_get_terminated max _ _ Vm) as [s [-> _]]. cbn [obind omap]. eauto.
  - destruct v as [[]| | |]; eauto.
Qed.

(** Once started, any sequence of calls is answered, without any other effect on the process: the framework stays started, in a state that
    the theorems on the manager are about. *)
Theorem C68_session : forall y ks m h, system_ok y -> reachable_typed y m -> running y m h -> obtainable h -> Forall (allowed_call y) ks ->
  exists answers m' h', calls h ks = Ok (answers, h') /\ List.length answers = List.length ks /\ running y m' h' /\ reachable_typed y m'.
Proof.
  intros y ks m h Sy R Ru Ob F. apply obtainable_inv in Ob. revert m h R Ru Ob F. induction ks as [|k ks IH]; intros m h R Ru I F.
  - exists [], m, h. cbn [calls]. auto.
  - inversion F as [|? ? Fk Fr]; subst. clear F.
    assert (exists a m' h', call h k = Ok (a, h') /\ running y m' h' /\ reachable_typed y m') as [a [m' [h' [E [Ru' R']]]]].
    { pose proof (reachable_ok y m Sy (typed_reachable y m R)) as [Mo _].
      assert (forall c, all_typed c -> (forall d n t, c <> CSetRule d n t) -> exists a m' h', c_step h (Inst y m true) c = Ok (a, h') /\ running y m' h' /\ reachable_typed y m') as St.
      { intros c Tc Nr. destruct (step_ok y m c Sy Mo) as [[b [m' [Es _]]]|[_ [d [n [t Ec]]]]]; [|exfalso; eapply Nr; eauto]. exists (status b), m', (with_mgr h (Inst y m true) m').
        unfold c_step. cbn [in_sys in_mgr]. rewrite Es. split; auto. split; [reflexivity|]. apply (typed_step y m c b m'); auto. }
      unfold running in Ru. unfold handle_inv in I. rewrite Ru in I. cbn [in_mgr] in I.
      destruct k as [f cs|n v|n|need|path|p|p v|p|p s|c]; cbn [call]; [unfold c_start; rewrite Ru; cbn [obind]; exists AFailed, m, h; auto|..]; rewrite Ru.
      - destruct (name_find n (ch_names h)) as [j|]; [|exists AFailed, m, h; auto]. apply St; [split; [exact Logic.I|discriminate]|discriminate].
      - destruct (name_find n (ch_names h)) as [j|] eqn:Fj; [|exists AFailed, m, h; auto]. apply (name_inv_find _ _ _ _ I) in Fj. destruct Fj as [c [Fj _]]. cbn [in_mgr]. rewrite Fj.
        exists (AInt (cr_state c)), m, h. auto.
      - apply St; [split; [exact Logic.I|discriminate]|discriminate].
      - destruct (parameter_handle _ path) as [p|]; [exists (AHandle p), m, h|exists AFailed, m, h]; auto.
      - destruct Fk as [e He]. destruct (read_answers y m h p e (HKVal KInt) Sy R Ru He ltac:(auto)) as [a ->]. exists a, m, h. auto.
      - destruct Fk as [_ Hv]. apply St; [split; [exact Hv|discriminate]|discriminate].
      - destruct Fk as [e He]. destruct (read_answers y m h p e HKStr Sy R Ru He ltac:(auto)) as [a ->]. exists a, m, h. auto.
      - apply St; [split; [exact Logic.I|discriminate]|discriminate].
      - cbn [in_started]. destruct (tuning_command c) eqn:Tc; [|exists AFailed, m, h; auto]. apply St; [|exact Fk]. split; [destruct c; try discriminate Tc; exact Logic.I|]. intros p bytes ->. discriminate Tc. }
    destruct (IH m' h' R' Ru' (call_inv _ _ _ _ I E) Fr) as [l [m2 [h2 [C [Ll [Ru2 R2]]]]]]. exists (a :: l), m2, h2. cbn [calls]. rewrite E. cbn [obind fst snd]. rewrite C. cbn [obind fst snd List.length]. auto.
Qed.
Print Assumptions C68_session.

(** ** Criteria *)

(** The value read for a criterion is the last one set, whatever happens in between: other criteria set, applications, another start
    attempt, commands of the remote server. *)
Theorem C68_criterion : forall h n v h' ks answers h'', obtainable h -> call h (KSetCriterion n v) = Ok (ADone, h') ->
  calls h' ks = Ok (answers, h'') -> Forall (fun k => ~ sets_criterion n k) ks -> call h'' (KGetCriterion n) = Ok (AInt v, h'').
Proof.
  intros h n v h' ks answers h'' Ob E C F. apply obtainable_inv in Ob. apply holds_get. apply (calls_keep_state ks h' answers h''); auto; [apply (call_inv _ _ _ _ Ob E)|].
  apply (set_holds h n v ADone h'); auto.
Qed.
Print Assumptions C68_criterion.

(** The names that can be set are those that can be read. *)
Theorem C68_unknown_criterion : forall h n v, obtainable h -> (call h (KSetCriterion n v) = Ok (AFailed, h) <-> call h (KGetCriterion n) = Ok (AFailed, h)).
Proof.
  intros h n v Ob. apply obtainable_inv in Ob. unfold handle_inv in Ob. cbn [call]. destruct (ch_pfw h) as [i|]; [|tauto]. destruct (name_find n (ch_names h)) as [j|] eqn:F; [|tauto].
  apply (name_inv_find _ _ _ _ Ob) in F. destruct F as [k [F _]]. rewrite F. cbn [c_step step obind fst snd status]. split; discriminate.
Qed.
Print Assumptions C68_unknown_criterion.

(** A criterion set, like any read, leaves every parameter as it was.  Missing for the documented claim that the change has no effect until
    pfwApplyConfigurations: false when the remote server is used, see below. *)
Theorem C68_staged_partial : forall h k a h' p, call h k = Ok (a, h') -> reads k ->
  omap fst (call h' (KGetInt p)) = omap fst (call h (KGetInt p)) /\ omap fst (call h' (KGetString p)) = omap fst (call h (KGetString p)).
Proof.
  intros h k a h' p E R. destruct (reads_same h k a h' E R) as [->|[i [cs [Ei ->]]]]; [auto|]. cbn [call]. rewrite Ei. cbn [ch_pfw with_mgr]. unfold c_read. cbn [in_sys in_mgr].
  assert (forall u, handle_get (in_sys i) p u (with_crits (in_mgr i) cs) = handle_get (in_sys i) p u (in_mgr i)) as G by reflexivity. rewrite !G.
  split; match goal with |- context [handle_get ?a ?b ?c ?d] => destruct (handle_get a b c d) as [[[]| | |]| | |] end; reflexivity.
Qed.
Print Assumptions C68_staged_partial.

(** ** Parameters *)

(** A parameter handle is given exactly for the paths of parameters. *)
Theorem C68_bind : forall y m h path p, running y m h ->
  (call h (KBind path) = Ok (AHandle p, h) <-> locate (sy_root y) path = Some p /\ exists e, param_at (sy_root y) p e)
  /\ ((forall q, locate (sy_root y) path = Some q -> forall e, ~ param_at (sy_root y) q e) -> call h (KBind path) = Ok (AFailed, h)).
Proof.
  intros y m h path p Ru. cbn [call]. unfold running in Ru. rewrite Ru. cbn [in_sys]. unfold parameter_handle, param_at. split.
  - destruct (locate (sy_root y) path) as [q|]; [|split; [discriminate|intros [X _]; discriminate X]]. destruct (elem_at (sy_root y) q) as [e|] eqn:Eq.
    + destruct (is_param (e_kind e)) eqn:Pe.
      * split; [intros X; inversion X; subst; eauto|]. intros [X _]. inversion X; subst. auto.
      * split; [discriminate|]. intros [X [e' [A B]]]. inversion X; subst. congruence.
    + split; [discriminate|]. intros [X [e' [A B]]]. inversion X; subst. congruence.
  - intros N. destruct (locate (sy_root y) path) as [q|]; auto. destruct (elem_at (sy_root y) q) as [e|] eqn:Eq; auto. destruct (is_param (e_kind e)) eqn:Pe; auto. exfalso. apply (N q eq_refl e). auto.
Qed.
Print Assumptions C68_bind.

(** Synchronised hardware that does not fail, for the element at [p]. *)
Definition synchronised (y : system) (p : list nat) : Prop := (exists q s, above q p /\ sy_own y q = Some s) /\ forall tr s, sy_hw y tr s = true.

Lemma sync_param_done : forall y p bb tr, synchronised y p -> exists tr', sync_param y p true bb tr = (true, tr').
Proof.
  intros y p bb tr [[q [s [A O]]] H]. unfold sync_param. destruct (get_syncer y p) as [x|] eqn:G; [|rewrite (get_syncer_None y p G q A) in O; discriminate].
  unfold sync_one. rewrite H. eauto.
Qed.

(** What happens to a set of a scalar parameter that is in no domain, out of tuning mode: the write of its value is the set. *)
Lemma set_committed : forall y m h p e v, system_ok y -> reachable_typed y m -> running y m h -> param_at (sy_root y) p e -> array_length (e_kind e) = 0 -> hval_size v = 0 ->
  mg_tuning m = false -> rogue m p -> (forall d q, In d (ds_list (mg_doms m)) -> In q (dm_elems d) -> ~ above p q) ->
  handle_set y p v m = write_main y p true (handle_write (e_kind e) v (offset (sy_root y) p) (mg_main m)) m.
Proof.
  intros y m h p e v Sy R _ He Ar Sz T Rg Dn. unfold handle_set. rewrite (proj1 He). unfold check_set, check_get, is_array. rewrite (proj2 He), Ar, Sz. cbn [negb Nat.eqb Bool.eqb andb orb].
  rewrite (proj2 (C33_rogue_element y m p e Sy (typed_reachable y m R) (proj1 He))) by (split; auto). cbn [andb]. rewrite T. unfold handle_commit. rewrite (proj1 He). auto.
Qed.

(** A parameter without a domain below it: it has no child. *)
Lemma leaf_no_domain : forall y m p e, system_ok y -> reachable_typed y m -> param_at (sy_root y) p e -> rogue m p -> forall d q, In d (ds_list (mg_doms m)) -> In q (dm_elems d) -> ~ above p q.
Proof.
  intros y m p e Sy R He Rg d q Hd Hq A. pose proof (reachable_ok y m Sy (typed_reachable y m R)) as [[K _] _]. pose proof (proj1 (proj1 Sy)) as W.
  destruct A as [r ->]. destruct r as [|i r]; [rewrite app_nil_r in Hq; apply (Rg d Hd); exists p; split; auto; exists []; rewrite app_nil_r; auto|].
  destruct (dk_exist y d (ds_domain y _ K d Hd) _ Hq) as [c Ec]. rewrite elem_at_app, (proj1 He) in Ec. cbn [elem_at] in Ec. rewrite (LoadProofs.param_leaf_children _ _ _ W He) in Ec. destruct i; discriminate.
Qed.

(** An integer parameter in no domain, out of tuning mode: a number of its range is stored, read back and pushed to the hardware, and the
    other parameters keep their values; any other number is refused and nothing changes.  Missing: ranges beyond the signed range of
    their size, for which it is false, see below. *)
Theorem C68_set_int_partial : forall y m h p e sg b lo hi v, system_ok y -> reachable_typed y m -> running y m h -> param_at (sy_root y) p e -> e_kind e = KdParam (PInt sg b lo hi) ->
  synchronised y p -> mg_tuning m = false -> rogue m p -> (- 2 ^ 31 <= v < 2 ^ 31)%Z -> (hi <= width_hi true b)%Z ->
  ((lo <= v <= hi)%Z -> exists m' h', call h (KSetInt p v) = Ok (ADone, h') /\ running y m' h' /\ call h' (KGetInt p) = Ok (AInt v, h')
     /\ (forall q x, param_at (sy_root y) q x -> q <> p -> same_setting (sy_root y) q 0 (mg_main m') 0 (mg_main m)) /\ mg_doms m' = mg_doms m)
  /\ (~ (lo <= v <= hi)%Z -> call h (KSetInt p v) = Ok (AFailed, h)).
Proof.
  intros y m h p e sg b lo hi v Sy R Ru He Ek Sn T Rg Hv Hh. pose proof (fits_read y m p e Sy R He) as Ft. rewrite Ek in Ft. cbn [size_of_kind pt_size] in Ft.
  pose proof (param_kind_wf _ _ _ (proj1 (proj1 Sy)) He) as Kw. rewrite Ek in Kw. cbn [kind_wf] in Kw.
  assert (handle_set y p (HVal (UInt v)) m = write_main y p true (handle_write (e_kind e) (HVal (UInt v)) (offset (sy_root y) p) (mg_main m)) m) as Hs.
  { apply (set_committed y m h p e); auto; [rewrite Ek; auto|]. intros d q. apply (leaf_no_domain y m p e Sy R He Rg). }
  assert (-2147483648 <= v <= 2147483647)%Z as Hv' by lia.
  pose proof (int_handle sg b lo hi (Fmt false false) true v (offset (sy_root y) p) (mg_main m) Kw Ft Hv' Hh) as A. unfold user_val, user_kind in A. destruct A as [A1 A2].
  unfold running in Ru. split; intros Rn.
  - destruct (A1 Rn) as [bb [B1 [B2 [B3 B4]]]]. rewrite Ek in Hs. cbn [handle_write] in Hs. rewrite B1 in Hs. unfold write_main in Hs. cbn [committed obind fst snd] in Hs.
    destruct (sync_param_done y p bb (mg_trace m) Sn) as [tr Es]. rewrite Es in Hs.
    set (m' := with_trace (with_main m bb) tr) in *. exists m', (with_mgr h (Inst y m true) m').
    assert (call h (KSetInt p v) = Ok (ADone, with_mgr h (Inst y m true) m')) as C by (cbn [call]; rewrite Ru; unfold c_step; cbn [in_sys in_mgr step]; rewrite Hs; reflexivity).
    split; auto. split; [reflexivity|]. split.
    + cbn [call ch_pfw with_mgr]. unfold c_read. cbn [in_sys in_mgr]. unfold handle_get. rewrite (proj1 He), Ek. cbn [check_get is_param is_array array_length Nat.eqb negb hkind_array Bool.eqb andb handle_read].
      cbn [mg_main with_trace with_main m']. rewrite B4. reflexivity.
    + destruct (C32_handle_set y m p (HVal (UInt v)) true m' Sy (typed_reachable y m R) Hv Hs) as [_ [D1 [D2 _]]]. split; [exact D2|exact D1].
  - specialize (A2 Rn). rewrite Ek in Hs. cbn [handle_write] in Hs. rewrite A2 in Hs. unfold write_main in Hs. cbn [committed obind fst snd] in Hs. rewrite same_main in Hs.
    cbn [call]. rewrite Ru. unfold c_step. cbn [in_sys in_mgr step]. rewrite Hs. cbn [obind fst snd status]. f_equal. f_equal. unfold with_mgr. cbn [in_sys in_started]. rewrite <- Ru. destruct h; auto.
Qed.
Print Assumptions C68_set_int_partial.

(** A string parameter in no domain, out of tuning mode: a C string that fits is stored and read back, a longer one is refused and nothing
    changes. *)
Theorem C68_set_string : forall y m h p e max s, system_ok y -> reachable_typed y m -> running y m h -> param_at (sy_root y) p e -> e_kind e = KdString max ->
  synchronised y p -> mg_tuning m = false -> rogue m p -> ~ In zero s ->
  (List.length s <= max -> exists m' h', call h (KSetString p s) = Ok (ADone, h') /\ running y m' h' /\ call h' (KGetString p) = Ok (AText s, h')
     /\ (forall q x, param_at (sy_root y) q x -> q <> p -> same_setting (sy_root y) q 0 (mg_main m') 0 (mg_main m)) /\ mg_doms m' = mg_doms m)
  /\ (max < List.length s -> call h (KSetString p s) = Ok (AFailed, h)).
Proof.
  intros y m h p e max s Sy R Ru He Ek Sn T Rg Hz. pose proof (fits_read y m p e Sy R He) as Ft. rewrite Ek in Ft. cbn [size_of_kind] in Ft. unfold string_size in Ft.
  assert (handle_set y p (HStr s) m = write_main y p true (handle_write (e_kind e) (HStr s) (offset (sy_root y) p) (mg_main m)) m) as Hs.
  { apply (set_committed y m h p e); auto; [rewrite Ek; auto|]. intros d q. apply (leaf_no_domain y m p e Sy R He Rg). }
  destruct (string_set_spec max s (offset (sy_root y) p) (mg_main m) Ft) as [A1 A2]. unfold running in Ru. split; intros Rn.
  - destruct (A1 Rn) as [bb [B1 _]]. rewrite Ek in Hs. cbn [handle_write] in Hs. rewrite B1 in Hs. unfold write_main in Hs. cbn [committed obind fst snd] in Hs.
    destruct (sync_param_done y p bb (mg_trace m) Sn) as [tr Es]. rewrite Es in Hs.
    set (m' := with_trace (with_main m bb) tr) in *. exists m', (with_mgr h (Inst y m true) m').
    assert (call h (KSetString p s) = Ok (ADone, with_mgr h (Inst y m true) m')) as C by (cbn [call]; rewrite Ru; unfold c_step; cbn [in_sys in_mgr step]; rewrite Hs; reflexivity).
    split; auto. split; [reflexivity|]. split.
    + cbn [call ch_pfw with_mgr]. unfold c_read. cbn [in_sys in_mgr]. unfold handle_get. rewrite (proj1 He), Ek. cbn [check_get is_param is_array array_length Nat.eqb negb hkind_array Bool.eqb andb handle_read].
      cbn [mg_main with_trace with_main m']. rewrite (string_set_get _ _ _ _ _ Hz B1). cbn [omap obind]. f_equal. f_equal. f_equal. clear -Hz. induction s as [|c s IH]; auto. cbn [c_str].
      assert (char_eqb c zero = false) as -> by (apply char_eqb_neq; intros ->; apply Hz; simpl; auto). rewrite IH; auto. intros X. apply Hz. simpl. auto.
    + destruct (C32_handle_set y m p (HStr s) true m' Sy (typed_reachable y m R) Logic.I Hs) as [_ [D1 [D2 _]]]. split; [exact D2|exact D1].
  - specialize (A2 Rn). rewrite Ek in Hs. cbn [handle_write] in Hs. rewrite A2 in Hs. unfold write_main in Hs. cbn [committed obind fst snd] in Hs. rewrite same_main in Hs.
    cbn [call]. rewrite Ru. unfold c_step. cbn [in_sys in_mgr step]. rewrite Hs. cbn [obind fst snd status]. f_equal. f_equal. unfold with_mgr. cbn [in_sys in_started]. rewrite <- Ru. destruct h; auto.
Qed.
Print Assumptions C68_set_string.

(** The parameters of a domain are set by configurations only: a set is refused and changes nothing. *)
Theorem C68_domain_parameter : forall y m h p v, system_ok y -> reachable_typed y m -> running y m h -> ~ rogue m p ->
  (forall s, call h (KSetString p s) = Ok (AFailed, h)) /\ ((- 2 ^ 31 <= v < 2 ^ 31)%Z -> call h (KSetInt p v) = Ok (AFailed, h)).
Proof.
  intros y m h p v Sy R Ru Rg. pose proof (reachable_ok y m Sy (typed_reachable y m R)) as [Mo _]. unfold running in Ru.
  assert (forall w, hval_ok w -> c_step h (Inst y m true) (CHandleSet p w) = Ok (AFailed, h)) as G.
  { intros w Hw. destruct (step_ok y m (CHandleSet p w) Sy Mo) as [[b [m' [E _]]]|[_ [d [n [t X]]]]]; [|discriminate X]. destruct (C32_handle_set y m p w b m' Sy (typed_reachable y m R) Hw E) as [_ [_ [_ [_ D]]]].
    destruct (D Rg) as [-> ->]. unfold c_step. cbn [in_sys in_mgr]. rewrite E. cbn [obind fst snd status]. f_equal. f_equal. unfold with_mgr. cbn [in_sys in_started]. rewrite <- Ru. destruct h; auto. }
  cbn [call]. rewrite Ru. split; [intros s; apply G; exact Logic.I|intros Hv; apply G; exact Hv].
Qed.
Print Assumptions C68_domain_parameter.

(** ** A client of the demo *)

Definition cd_criteria : list c_criterion :=
  [CCrit (Some (lit "Mode")) false (Some [lit "Idle"; lit "Call"; lit "Normal"]); CCrit (Some (lit "Devices")) true (Some [lit "Ear"; lit "HS"])].
Definition cd_files : files := fun _ => LDone demo (fun _ => None) true (Domains [] [] 0) true.
Definition cd_after (ks : list ccall) : chandle := match calls c_new ks with Ok (_, h) => h | _ => c_new end.
Definition cd_mgr (h : chandle) : mgr := match ch_pfw h with Some i => in_mgr i | None => demo_start end.
Definition cd_start : chandle := cd_after [KStart cd_files cd_criteria].

Lemma cd_good : good_files demo cd_criteria cd_files.
Proof.
  split; [apply demo_ok|]. intros ks _ Ck. exists (fun _ => None), true, (Domains [] [] 0). split; auto. split; [intros o e x bytes _ _ H; discriminate H|].
  split; auto. split; [apply no_domains_ok|]. split; [intros d c r []|]. vm_compute. reflexivity.
Qed.

Lemma cd_countable : countable cd_criteria.
Proof. intros c vs [<-|[<-|[]]] H; inversion H; subst; vm_compute; discriminate. Qed.

Lemma cd_makeable : all_makeable cd_criteria.
Proof.
  split.
  - repeat constructor.
    + exists (lit "Mode"), [lit "Idle"; lit "Call"; lit "Normal"]. split; auto. split; auto. split; [|discriminate]. repeat constructor; simpl; intuition discriminate.
    + exists (lit "Devices"), [lit "Ear"; lit "HS"]. split; auto. split; auto. split; [repeat constructor; simpl; intuition discriminate|]. intros _. simpl. split; [lia|intuition discriminate].
  - repeat constructor; simpl; intuition discriminate.
Qed.

Lemma cd_running : running demo (cd_mgr cd_start) cd_start.
Proof. vm_compute. reflexivity. Qed.

Lemma cd_obtainable : obtainable cd_start.
Proof. exists [KStart cd_files cd_criteria], [ADone]. vm_compute. reflexivity. Qed.

Lemma cd_reachable : reachable_typed demo (cd_mgr cd_start).
Proof.
  destruct (C68_start demo cd_files cd_criteria cd_good cd_countable cd_makeable) as [m [h [E [Ru [St _]]]]].
  assert (call c_new (KStart cd_files cd_criteria) = Ok (ADone, cd_start)) as E' by (vm_compute; reflexivity). rewrite E' in E. inversion E; subst h. clear E E'.
  pose proof cd_running as Ru'. unfold running in *. rewrite Ru' in Ru. inversion Ru as [Rm]. rewrite Rm. exists m, [], []. split; auto. split; [|split; [constructor|reflexivity]].
  intros q e max He Ek. rewrite <- Rm. split.
  - pose proof (positions_In _ _ _ (proj1 He)) as P. simpl in P.
    repeat match type of P with _ \/ _ => destruct P as [<-|P] | False => destruct P end; try (destruct He as [He _]; inversion He; subst; discriminate Ek).
    destruct He as [He _]. inversion He; subst. exists 0. split; [lia|]. vm_compute. reflexivity.
  - intros d c a H. vm_compute in H. destruct H.
Qed.

Example C68_start_nonvacuous :
  good_files demo cd_criteria cd_files /\ countable cd_criteria /\ all_makeable cd_criteria
  /\ omap fst (calls c_new [KStart cd_files cd_criteria; KStart cd_files cd_criteria; KGetCriterion (lit "Devices"); KSetCriterion (lit "Devices") 2; KGetCriterion (lit "Devices"); KGetCriterion (lit "Device")])
     = Ok [ADone; AFailed; AInt 0; ADone; AInt 2; AFailed]
  /\ map (fun k => (cty_atomic (cr_type k) (lit "HS"), cty_atomic (cr_type k) (lit "Normal"))) (mg_crits (cd_mgr cd_start)) = [(None, Some 2%Z); (Some 2%Z, None)].
Proof. split; [exact cd_good|]. split; [exact cd_countable|]. split; [exact cd_makeable|]. split; vm_compute; reflexivity. Qed.

(** Refused: two criteria of the same name, a value given twice, "none", 32 values, no name. *)
Example C68_start_refused_nonvacuous :
  map (fun cs => omap fst (call c_new (KStart cd_files cs)))
    [[CCrit (Some (lit "A")) false (Some []); CCrit (Some (lit "A")) true (Some [])];
     [CCrit (Some (lit "A")) false (Some [lit "v"; lit "v"])];
     [CCrit (Some (lit "A")) true (Some [lit "none"])];
     [CCrit (Some (lit "A")) true (Some (map (fun i => lit "v" ++ print_dec (Z.of_nat i)) (seq 0 32)))];
     [CCrit None false (Some [])];
     [CCrit (Some (lit "A")) true (Some (map (fun i => lit "v" ++ print_dec (Z.of_nat i)) (seq 0 31))); CCrit (Some (lit "B")) false (Some [lit "none"])]]
  = [Ok AFailed; Ok AFailed; Ok AFailed; Ok AFailed; Ok AFailed; Ok ADone].
Proof. vm_compute. reflexivity. Qed.

Example C68_before_start_nonvacuous :
  omap fst (calls c_new [KSetCriterion (lit "Mode") 1; KGetCriterion (lit "Mode"); KApply []; KBind (lit "/Sys/Aux/x")]) = Ok [AFailed; AFailed; AFailed; AFailed].
Proof. vm_compute. reflexivity. Qed.

(** The domains of the demo made through the remote server, then a session. *)
Definition cd_calls : list ccall :=
  map KTune demo_cmds
  ++ [KSetCriterion (lit "Mode") 1; KBind (lit "/Sys/Sub/blk/a"); KBind (lit "/Sys/Sub/blk"); KGetInt [0; 0; 0]; KApply []; KGetInt [0; 0; 0]; KGetString [0; 0; 0]; KSetInt [0; 0; 0] 7;
      KSetInt [1; 0] 7; KGetInt [1; 0]; KSetInt [1; 0] 1001; KGetString [1; 0]; KGetInt [0; 0; 1]].

Example C68_session_nonvacuous :
  system_ok demo /\ reachable_typed demo (cd_mgr cd_start) /\ running demo (cd_mgr cd_start) cd_start /\ obtainable cd_start
  /\ Forall (allowed_call demo) (skipn 20 cd_calls)
  /\ omap (fun x => skipn 20 (fst x)) (calls cd_start cd_calls)
     = Ok [ADone; AHandle [0; 0; 0]; AFailed; AInt 200; ADone; AInt 100; AText (lit "100"); AFailed; ADone; AInt 7; AFailed; AText (lit "7"); AFailed].
Proof.
  split; [apply demo_ok|]. split; [exact cd_reachable|]. split; [exact cd_running|]. split; [exact cd_obtainable|]. split; [|vm_compute; reflexivity].
  cbn [skipn cd_calls map demo_cmds app]. repeat constructor; try (eexists; split; vm_compute; reflexivity); vm_compute; discriminate.
Qed.

Example C68_criterion_nonvacuous :
  obtainable cd_start /\ (exists h', call cd_start (KSetCriterion (lit "Mode") 2) = Ok (ADone, h')
    /\ omap fst (calls h' [KSetCriterion (lit "Devices") 3; KApply []; KStart cd_files []; KGetCriterion (lit "Mode"); KGetCriterion (lit "Devices")]) = Ok [ADone; ADone; AFailed; AInt 2; AInt 3]).
Proof. split; [exact cd_obtainable|]. exists (cd_after [KStart cd_files cd_criteria; KSetCriterion (lit "Mode") 2]). split; vm_compute; reflexivity. Qed.

(** The integer of the second subsystem, the string of the first. *)
Example C68_set_int_nonvacuous :
  synchronised demo [1; 0] /\ synchronised demo [0; 2] /\ mg_tuning (cd_mgr cd_start) = false /\ rogue (cd_mgr cd_start) [1; 0] /\ (1000 <= width_hi true 2)%Z
  /\ param_at demo_tree [1; 0] (Elem (lit "x") (KdParam (PInt false 2 5 1000)) []) /\ param_at demo_tree [0; 2] (Elem (lit "str") (KdString 4) [])
  /\ omap fst (calls cd_start [KSetInt [1; 0] 5; KGetInt [1; 0]; KSetInt [1; 0] 4; KGetInt [1; 0]; KSetString [0; 2] (lit "abcd"); KGetString [0; 2]; KSetString [0; 2] (lit "abcde"); KGetString [0; 2]])
     = Ok [ADone; AInt 5; AFailed; AInt 5; ADone; AText (lit "abcd"); AFailed; AText (lit "abcd")].
Proof.
  split; [split; [exists [1], 20; split; [exists [0]|]; reflexivity|reflexivity]|]. split; [split; [exists [0; 2], 12; split; [exists []|]; reflexivity|reflexivity]|].
  split; [vm_compute; reflexivity|]. split; [intros d H; vm_compute in H; destruct H|]. split; [vm_compute; discriminate|]. split; [split; reflexivity|]. split; [split; reflexivity|]. vm_compute. reflexivity.
Qed.

(** ** What a client cannot rely on *)

(** A start that failed cannot be tried again: once the configuration is refused, the same handle refuses any other one as already started. *)
Theorem C68_retry_refuted : exists f cs h, good_files demo cs f /\ countable cs /\ all_makeable cs
  /\ call c_new (KStart (fun _ => LNothing) cs) = Ok (AFailed, h) /\ call h (KStart f cs) = Ok (AFailed, h)
  /\ exists h', call c_new (KStart f cs) = Ok (ADone, h').
Proof.
  exists cd_files, cd_criteria, (cd_after [KStart (fun _ => LNothing) cd_criteria]). split; [exact cd_good|]. split; [exact cd_countable|]. split; [exact cd_makeable|].
  split; [vm_compute; reflexivity|]. split; [vm_compute; reflexivity|]. exists cd_start. vm_compute. reflexivity.
Qed.
Print Assumptions C68_retry_refuted.

(** After a start that failed, criteria can be set and configurations applied: these calls report a success. *)
Theorem C68_failed_start_refuted : exists f cs h, call c_new (KStart f cs) = Ok (AFailed, h)
  /\ omap fst (calls h [KSetCriterion (lit "Mode") 1; KApply []; KGetCriterion (lit "Mode")]) = Ok [ADone; ADone; AInt 1].
Proof. exists (fun _ => LNothing), cd_criteria, (cd_after [KStart (fun _ => LNothing) cd_criteria]). split; vm_compute; reflexivity. Qed.
Print Assumptions C68_failed_start_refuted.

(** After a start refused for its settings, or because the remote server could not be started, parameters can be bound and set as well: the
    hardware is written by a framework reported as not started. *)
Theorem C68_failed_start_writes_refuted : exists f cs h m', call c_new (KStart f cs) = Ok (AFailed, h)
  /\ exists h', calls h [KBind (lit "/Sys/Aux/x"); KSetInt [1; 0] 7; KGetInt [1; 0]] = Ok ([AHandle [1; 0]; ADone; AInt 7], h')
     /\ ch_pfw h' = Some (Inst demo m' false) /\ mg_trace m' <> [].
Proof.
  set (k0 := KStart (fun _ => LSettings demo true (Domains [] [] 0)) cd_criteria). set (ks := [KBind (lit "/Sys/Aux/x"); KSetInt [1; 0] 7; KGetInt [1; 0]]).
  exists (fun _ => LSettings demo true (Domains [] [] 0)), cd_criteria, (cd_after [k0]), (cd_mgr (cd_after (k0 :: ks))).
  split; [vm_compute; reflexivity|]. exists (cd_after (k0 :: ks)). split; [vm_compute; reflexivity|]. split; [vm_compute; reflexivity|]. vm_compute. discriminate.
Qed.
Print Assumptions C68_failed_start_writes_refuted.

(** A criterion change may reach the parameters without pfwApplyConfigurations: leaving the tuning mode, through the remote server, applies it. *)
Theorem C68_staged_refuted : exists h h' h'' tune, obtainable h /\ call h (KSetCriterion (lit "Mode") 1) = Ok (ADone, h') /\ Forall (fun k => exists c, k = KTune c) tune
  /\ omap fst (calls h tune) = Ok [ADone; ADone] /\ calls h' tune = Ok ([ADone; ADone], h'')
  /\ omap fst (call h (KGetInt [0; 0; 0])) = Ok (AInt 200)
  /\ omap fst (calls h (tune ++ [KGetInt [0; 0; 0]])) = Ok [ADone; ADone; AInt 200] /\ omap fst (call h'' (KGetInt [0; 0; 0])) = Ok (AInt 100).
Proof.
  set (tune := [KTune (CTuning true []); KTune (CTuning false [])]). set (ks := KStart cd_files cd_criteria :: map KTune demo_cmds).
  exists (cd_after ks), (cd_after (ks ++ [KSetCriterion (lit "Mode") 1])), (cd_after (ks ++ [KSetCriterion (lit "Mode") 1] ++ tune)), tune.
  split; [exists ks, (repeat ADone 21); vm_compute; reflexivity|]. split; [vm_compute; reflexivity|]. split; [repeat constructor; eexists; reflexivity|].
  split; [vm_compute; reflexivity|]. split; [vm_compute; reflexivity|]. split; [vm_compute; reflexivity|]. split; vm_compute; reflexivity.
Qed.
Print Assumptions C68_staged_refuted.

(** In tuning mode an application of the configurations and a set of a parameter report a success and do nothing. *)
Theorem C68_tuning_refuted : exists h h', obtainable h
  /\ calls h [KSetCriterion (lit "Mode") 1; KApply []; KGetInt [0; 0; 0]; KSetInt [1; 0] 7; KGetInt [1; 0]] = Ok ([ADone; ADone; AInt 200; ADone; AInt 5], h')
  /\ omap fst (calls (cd_after (KStart cd_files cd_criteria :: map KTune demo_cmds)) [KSetCriterion (lit "Mode") 1; KApply []; KGetInt [0; 0; 0]; KSetInt [1; 0] 7; KGetInt [1; 0]])
     = Ok [ADone; ADone; AInt 100; ADone; AInt 7].
Proof.
  set (ks := KStart cd_files cd_criteria :: map KTune (demo_cmds ++ [CTuning true []])).
  exists (cd_after ks), (cd_after (ks ++ [KSetCriterion (lit "Mode") 1; KApply []; KGetInt [0; 0; 0]; KSetInt [1; 0] 7; KGetInt [1; 0]])).
  split; [exists ks, (repeat ADone 22); vm_compute; reflexivity|]. split; vm_compute; reflexivity.
Qed.
Print Assumptions C68_tuning_refuted.

(** A criterion takes any number, also one that stands for none of its values. *)
Theorem C68_any_value_refuted : exists h n v, obtainable h /\ In (Some n) (map cc_name cd_criteria) /\ (forall c i l vs, In c cd_criteria -> cc_name c = Some n -> cc_values c = Some vs -> nth_error vs i = Some l -> number (cc_incl c) i <> v)
  /\ cc_incl (hd (CCrit None true None) cd_criteria) = false
  /\ omap fst (calls h [KSetCriterion n v; KGetCriterion n]) = Ok [ADone; AInt v].
Proof.
  exists cd_start, (lit "Mode"), 17%Z. split; [exact cd_obtainable|]. split; [simpl; auto|]. split; [|split; vm_compute; reflexivity].
  intros c i l vs [<-|[<-|[]]] N V H; [|discriminate N]. inversion V; subst. destruct i as [|[|[|i]]]; try (destruct i; discriminate H); vm_compute; discriminate.
Qed.
Print Assumptions C68_any_value_refuted.

(** An unsigned parameter whose range goes over the signed one: the number set is not the number read. *)
Definition cu_system : system :=
  Sys (Elem (lit "Sys") KdSystem [Elem (lit "Sub") KdSubsystem [Elem (lit "v") (KdParam (PInt false 1 0 255)) []]]) (fun p => match p with [0] => Some 1 | _ => None end) (fun _ _ => true).
Theorem C68_unsigned_refuted : exists f p,
  omap fst (calls c_new [KStart f []; KBind (lit "/Sys/Sub/v"); KSetInt p 200; KGetInt p; KGetString p]) = Ok [ADone; AHandle p; ADone; AInt (-56); AText (lit "200")].
Proof. exists (fun _ => LDone cu_system (fun _ => None) true (Domains [] [] 0) true), [0; 0]. vm_compute. reflexivity. Qed.
Print Assumptions C68_unsigned_refuted.

(** A set that the hardware does not take is reported as failed, but the value is stored and read. *)
Theorem C68_unsynchronised_refuted : exists f p,
  omap fst (calls c_new [KStart f []; KGetInt p; KSetInt p 100; KGetInt p]) = Ok [ADone; AInt 0; AFailed; AInt 100].
Proof.
  exists (fun _ => LDone (Sys (sy_root cu_system) (sy_own cu_system) (fun _ _ => false)) (fun _ => None) true (Domains [] [] 0) true), [0; 0]. vm_compute. reflexivity.
Qed.
Print Assumptions C68_unsynchronised_refuted.
