(** C52: edition of the settings recorded by a configuration. *)
From Coq Require Import List Arith ZArith Bool Ascii String Lia.
From Verif Require Import Base BaseProofs TextSpec TextProofs BlackboardModel ArrayModel ArraySpec CriterionModel RuleModel TreeModel TreeSpec TreeProofs MemSpec MemProofs SyncModel DomainModel DomainSpec DomainInv DomainProofs
  DomainsInv MgrModel MgrSpec MgrProofs MgrFlow MgrSkel ApplySpec ApplyProofs ValueSpec ValueProofs ReadProofs ApplyMore ConfigSpec ConfigProofs ConfigProofs2 EditProofs Demo ApplyProps ConfigProps.
Import ListNotations.
Local Open Scope nat_scope.

(** The command, accepted or not, changes nothing but the parameter named: neither the other parameters of the configuration,
    nor the other live parameters, nor the other configurations.  The live parameter may only change when the configuration is
    the last applied one. *)
Theorem C52_nothing_else_changes : forall y m dn cn path v q e d c b m', system_ok y -> reachable y m -> locate (sy_root y) path = Some q -> param_at (sy_root y) q e ->
  ds_find dn (mg_doms m) = Some d -> dm_find cn d = Some c -> covers d q -> step y m (CSetConfigParameter dn cn path v) = Ok (b, m') ->
  (exists d' c', ds_find dn (mg_doms m') = Some d' /\ dm_find cn d' = Some c' /\ dm_elems d' = dm_elems d /\ dm_last d' = dm_last d
     /\ forall q2 e2, param_at (sy_root y) q2 e2 -> q2 <> q -> covers d q2 -> same_record (sy_root y) q2 c c')
  /\ (forall q2 e2, param_at (sy_root y) q2 e2 -> q2 <> q -> same_setting (sy_root y) q2 0 (mg_main m') 0 (mg_main m))
  /\ (is_last d c = false -> mg_main m' = mg_main m /\ mg_trace m' = mg_trace m)
  /\ (forall dn2 cn2 d2 c2, dn2 <> dn \/ cn2 <> cn -> ds_find dn2 (mg_doms m) = Some d2 -> dm_find cn2 d2 = Some c2 ->
        exists d2' c2', ds_find dn2 (mg_doms m') = Some d2' /\ dm_find cn2 d2' = Some c2' /\ dm_elems d2' = dm_elems d2 /\ cf_areas c2' = cf_areas c2).
Proof.
  intros y m dn cn path v q e d c b m' Sy R P Hq Fd Fc Cv H. destruct (reachable_ok y m Sy R) as [K _]. pose proof Sy as [[W _] _].
  destruct (edit_effect y m dn cn path v q e d c b m' Sy K P Hq Fd Fc Cv H) as [a [ok [bb [d' [c' [Ha [Ab [Ea [F1 [F2 [F3 [F4 [_ [F5 F6]]]]]]]]]]]]]].
  pose proof (ds_domain _ _ (proj1 K) d (ds_find_In _ _ _ Fd)) as Kd. pose proof (dm_find_In _ _ _ Fc) as Hc.
  assert (area_ok (sy_root y) a) as Ka. { destruct (dk_configs _ _ Kd c Hc) as [_ Fo]. rewrite Forall_forall in Fo. auto. }
  destruct (locate_param _ _ _ W P) as [e' [Ee Pp]]. pose proof (proj1 Hq) as Eq. assert (e' = e) as -> by congruence. rewrite (proj2 Hq) in Pp.
  split; [|split; [|split]].
  - exists d', c'. split; auto. split; auto. split; auto. split; auto. intros q2 e2 Hq2 D Cv2. destruct (covering_area y d c q2 Kd Hc Cv2) as [k [Hk Ak]].
    destruct (pos_eqb (ar_pos k) (ar_pos a)) eqn:Ek.
    + assert (k = a) as -> by (apply (one_area y d c k a q); auto; apply pos_eqb_eq in Ek; rewrite Ek; auto).
      exists a, (Area (ar_pos a) bb (ar_valid a)). split; auto. split; [rewrite F5; apply in_map_iff; exists a; rewrite Ek; auto|]. split; auto. split; auto. cbn [ar_pos ar_bb].
      apply (edit_frame y a q e q2 e2 (mg_fmt m) v ok bb path); auto.
    + apply (same_record_in _ _ _ _ k); auto. rewrite F5. apply in_map_iff. exists k. rewrite Ek. auto.
  - intros q2 e2 Hq2 D. destruct F6 as [[_ [_ G]]|[_ [_ G]]].
    + apply (set_live_frame y path v (with_doms m (mg_doms m')) b m' q [] Sy) with (e2 := e2); auto. apply K.
    + rewrite G. intros i O. reflexivity.
  - intros L. destruct F6 as [[_ [G _]]|[_ [_ G]]]; [congruence|]. rewrite G. auto.
  - intros dn2 cn2 d2 c2 D Fd2 Fc2. destruct (step_designates y m (CSetConfigParameter dn cn path v) b m' dn2 cn2 (dm_elems d2) (cf_areas c2) Sy K) with (2 := H) as [d2' [c2' [X1 [X2 [X3 X4]]]]].
    + cbn [spares]. destruct D; auto.
    + exists d2, c2. auto.
    + exists d2', c2'. auto.
Qed.
Print Assumptions C52_nothing_else_changes.

(** When the command succeeds, reading the setting then gives the text that the parameter itself would give, had the same text been
    given to it; and when the configuration is the last applied one the live parameter gives this text too.  (For an array: when
    the text has as many values as the array.) *)
Theorem C52_edited_value_is_read : forall y m dn cn path v q e d c m', system_ok y -> reachable y m -> locate (sy_root y) path = Some q -> param_at (sy_root y) q e ->
  ds_find dn (mg_doms m) = Some d -> dm_find cn d = Some c -> covers d q -> whole (e_kind e) v -> step y m (CSetConfigParameter dn cn path v) = Ok (true, m') ->
  exists bb, access_set (sy_root y) (mg_fmt m) path v 0 (mg_main m) = Ok (true, bb)
    /\ get_recorded y dn cn path m' = access_get (sy_root y) (mg_fmt m) path 0 bb
    /\ (is_last d c = true -> get_parameter y path m' = access_get (sy_root y) (mg_fmt m) path 0 bb).
Proof.
  intros y m dn cn path v q e d c m' Sy R P Hq Fd Fc Cv Wh H. destruct (reachable_ok y m Sy R) as [K _]. pose proof Sy as [[W _] _].
  pose proof (reachable_step _ _ _ _ _ R H) as R'. destruct (reachable_ok y m' Sy R') as [K' _].
  destruct (edit_effect y m dn cn path v q e d c true m' Sy K P Hq Fd Fc Cv H) as [a [ok [bb [d' [c' [Ha [Ab [Ea [F1 [F2 [F3 [F4 [Fi [F5 F6]]]]]]]]]]]]]].
  pose proof (ds_domain _ _ (proj1 K) d (ds_find_In _ _ _ Fd)) as Kd. pose proof (dm_find_In _ _ _ Fc) as Hc.
  assert (area_ok (sy_root y) a) as Ka. { destruct (dk_configs _ _ Kd c Hc) as [_ Fo]. rewrite Forall_forall in Fo. auto. }
  destruct (locate_param _ _ _ W P) as [e' [Ee Pp]]. pose proof (proj1 Hq) as Eq. assert (e' = e) as -> by congruence. rewrite (proj2 Hq) in Pp.
  assert (ok = true) as -> by (destruct F6 as [[X _]|[_ [X _]]]; auto).
  destruct (area_fits _ _ _ _ W Ka Hq Ab) as [G1 G2]. rewrite (storage_size_kind e (proj2 Hq)) in G2. pose proof (param_storage_fits _ _ _ W Hq) as Fp. destruct K as [K0 [V0 L0]].
  destruct (set_live_ok y path v m W L0) as [b1 [m1 [S1 _]]]. destruct (set_live_frame y path v m b1 m1 q [] Sy L0 Pp S1) as [_ [[ok1 [A1 _]] _]].
  pose proof A1 as A2. pose proof Ea as Ea2. unfold access_set in A2, Ea2. rewrite Pp, Eq in A2, Ea2.
  destruct (set_then_get (e_kind e) (mg_fmt m) (mg_fmt m) v (offset (sy_root y) q) _ _ _ _ _ _ _ _ (param_kind_wf _ _ _ W Hq) Wh G2 ltac:(rewrite Nat.sub_0_r, L0; exact Fp) Ea2 A2) as [Eo G]. subst ok1.
  specialize (G eq_refl). exists (mg_main m1). split; auto.
  assert (covers d' q) as Cv' by (destruct Cv as [x [Hx Ax]]; exists x; rewrite F3; auto).
  destruct (recorded_area_any y m' dn cn path q e d' c' Sy K' P Hq F1 F2 Cv') as [a' [Ha' [Ab' [_ [_ E']]]]].
  assert (a' = Area (ar_pos a) bb (ar_valid a)) as ->.
  { apply (one_area y d' c' a' _ q); auto; [apply (ds_domain _ _ (proj1 K')), (ds_find_In _ _ _ F1)|apply (dm_find_In _ _ _ F2)|]. rewrite F5. apply in_map_iff. exists a. rewrite pos_eqb_refl. auto. }
  cbn [ar_pos ar_bb] in E'.
  assert (mg_fmt m' = mg_fmt m) as Fm.
  { destruct F6 as [[_ [_ X]]|[_ [_ X]]]; [|rewrite X; auto]. destruct (set_live_frame y path v (with_doms m (mg_doms m')) true m' q [] Sy L0 Pp X) as [Y _]. exact Y. }
  assert (is_last d' c' = is_last d c) as El by (unfold is_last; rewrite F4, Fi; auto).
  assert (is_last d c = true -> get_parameter y path m' = access_get (sy_root y) (mg_fmt m) path 0 (mg_main m1)) as GL.
  { intros L. destruct F6 as [[_ [_ X]]|[[X|X] _]]; try congruence. destruct (set_live_frame y path v (with_doms m (mg_doms m')) true m' q [] Sy L0 Pp X) as [_ [[ok2 [A3 _]] _]].
    cbn [mg_main with_doms] in A3. change (mg_fmt (with_doms m (mg_doms m'))) with (mg_fmt m) in A3. unfold get_parameter. rewrite Fm. congruence. }
  split; auto. rewrite E', El, Fm. unfold access_get at 1. rewrite Pp, Eq, G. unfold access_get in GL |- *. rewrite Pp, Eq in GL |- *. destruct (is_last d c); [rewrite GL by auto|]; destruct (leaf_get (e_kind e) (mg_fmt m) [] (offset (sy_root y) q) 0 (mg_main m1)); auto.
Qed.
Print Assumptions C52_edited_value_is_read.

(** On a configuration that is not the last applied one: success exactly when the parameter itself accepts the text. *)
Theorem C52_success_partial : forall y m dn cn path v q e d c b m', system_ok y -> reachable y m -> locate (sy_root y) path = Some q -> param_at (sy_root y) q e ->
  ds_find dn (mg_doms m) = Some d -> dm_find cn d = Some c -> covers d q -> whole (e_kind e) v -> is_last d c = false -> step y m (CSetConfigParameter dn cn path v) = Ok (b, m') ->
  exists bb, access_set (sy_root y) (mg_fmt m) path v 0 (mg_main m) = Ok (b, bb).
Proof.
  intros y m dn cn path v q e d c b m' Sy R P Hq Fd Fc Cv Wh NL H. destruct (reachable_ok y m Sy R) as [K _]. pose proof Sy as [[W _] _].
  destruct (edit_effect y m dn cn path v q e d c b m' Sy K P Hq Fd Fc Cv H) as [a [ok [bb [d' [c' [Ha [Ab [Ea [_ [_ [_ [_ [_ [_ F6]]]]]]]]]]]]]].
  pose proof (ds_domain _ _ (proj1 K) d (ds_find_In _ _ _ Fd)) as Kd. pose proof (dm_find_In _ _ _ Fc) as Hc.
  assert (area_ok (sy_root y) a) as Ka. { destruct (dk_configs _ _ Kd c Hc) as [_ Fo]. rewrite Forall_forall in Fo. auto. }
  destruct (locate_param _ _ _ W P) as [e' [Ee Pp]]. pose proof (proj1 Hq) as Eq. assert (e' = e) as -> by congruence. rewrite (proj2 Hq) in Pp.
  destruct F6 as [[_ [X _]]|[_ [-> _]]]; [congruence|].
  destruct (area_fits _ _ _ _ W Ka Hq Ab) as [G1 G2]. rewrite (storage_size_kind e (proj2 Hq)) in G2. pose proof (param_storage_fits _ _ _ W Hq) as Fp. destruct K as [K0 [V0 L0]].
  destruct (set_live_ok y path v m W L0) as [b1 [m1 [S1 _]]]. destruct (set_live_frame y path v m b1 m1 q [] Sy L0 Pp S1) as [_ [[ok1 [A1 _]] _]].
  pose proof A1 as A2. pose proof Ea as Ea2. unfold access_set in A2, Ea2. rewrite Pp, Eq in A2, Ea2.
  destruct (set_then_get (e_kind e) (mg_fmt m) (mg_fmt m) v (offset (sy_root y) q) _ _ _ _ _ _ _ _ (param_kind_wf _ _ _ W Hq) Wh G2 ltac:(rewrite Nat.sub_0_r, L0; exact Fp) Ea2 A2) as [Eo _]. subst ok1. eauto.
Qed.
Print Assumptions C52_success_partial.

(** Configuration "Call" of D1 is not the last applied one, "Other" is. *)
Example C52_nonvacuous :
  let path := lit "/Sys/Sub/blk/a" in
  let m1 := demo_after demo (demo_tuned_cmds ++ [CSetConfigParameter (lit "D1") (lit "Call") path (lit "0x40")]) in
  let m2 := demo_after demo (demo_tuned_cmds ++ [CSetConfigParameter (lit "D1") (lit "Other") path (lit "0x40")]) in
  locate demo_tree path = Some [0; 0; 0] /\ step demo demo_tuned (CSetConfigParameter (lit "D1") (lit "Call") path (lit "0x40")) = Ok (true, m1)
  /\ map (fun m => (get_recorded demo (lit "D1") (lit "Call") path m, get_recorded demo (lit "D1") (lit "Other") path m, get_parameter demo path m)) [demo_tuned; m1; m2]
     = [(Ok (lit "100"), Ok (lit "200"), Ok (lit "200")); (Ok (lit "64"), Ok (lit "200"), Ok (lit "200")); (Ok (lit "100"), Ok (lit "64"), Ok (lit "64"))].
Proof. vm_compute. repeat split. Qed.

(** What is read is not what is recorded: the configuration is the last applied one and the parameter was set since.  The value
    really recorded appears when the other configuration is restored. *)
Theorem C52_recorded_value_is_read_refuted : exists y m dn cn path c2 m2, system_ok y /\ reachable y m /\ step y m (CRestore dn c2) = Ok (true, m2)
  /\ get_recorded y dn cn path m <> get_recorded y dn cn path m2.
Proof.
  exists demo, (demo_after demo (demo_tuned_cmds ++ [CSetParameter (lit "/Sys/Sub/blk/a") (lit "7")])), (lit "D1"), (lit "Other"), (lit "/Sys/Sub/blk/a"), (lit "Call"). eexists.
  split; [apply demo_ok|]. split.
  { exists demo_start, (demo_tuned_cmds ++ [CSetParameter (lit "/Sys/Sub/blk/a") (lit "7")]), (repeat true 22). split; [exact demo_started|vm_compute; reflexivity]. }
  split; [vm_compute; reflexivity|]. vm_compute. discriminate.
Qed.
Print Assumptions C52_recorded_value_is_read_refuted.

(** One cell of an array, which setParameter accepts, is refused. *)
Theorem C52_array_cell_refuted : exists y m dn cn path v m1, system_ok y /\ reachable y m /\ step y m (CSetParameter path v) = Ok (true, m1)
  /\ (exists d q rest, ds_find dn (mg_doms m) = Some d /\ param_of (sy_root y) path = Some (q, rest) /\ covers d q) /\ step y m (CSetConfigParameter dn cn path v) = Ok (false, m).
Proof.
  exists demo, demo_tuned, (lit "D1"), (lit "Call"), (lit "/Sys/Sub/blk/arr/2"), (lit "1"). eexists. split; [apply demo_ok|]. split; [apply demo_tuned_reachable|]. split; [vm_compute; reflexivity|].
  split; [|vm_compute; reflexivity]. do 3 eexists. split; [vm_compute; reflexivity|]. split; [vm_compute; reflexivity|]. exists [0; 0]. split; [vm_compute; auto|exists [1]; reflexivity].
Qed.
Print Assumptions C52_array_cell_refuted.

(** The push to the hardware fails on the edited parameter: an error is reported, yet the setting and the parameter are changed. *)
Theorem C52_failure_changes_nothing_refuted : exists y m dn cn path v m1, system_ok y /\ reachable y m /\ step y m (CSetConfigParameter dn cn path v) = Ok (false, m1)
  /\ get_recorded y dn cn path m1 <> get_recorded y dn cn path m /\ get_parameter y path m1 <> get_parameter y path m.
Proof.
  exists demo_faulty, (demo_after demo_faulty (demo_tuned_cmds ++ [CRestore (lit "D2") (lit "On")])), (lit "D2"), (lit "On"), (lit "/Sys/Sub/bits/low"), (lit "5"). eexists. split; [apply demo_ok|].
  split; [eexists demo_start, (demo_tuned_cmds ++ [CRestore (lit "D2") (lit "On")]), _; split; [exact demo_faulty_started|vm_compute; reflexivity]|]. split; [vm_compute; reflexivity|]. vm_compute. split; discriminate.
Qed.
Print Assumptions C52_failure_changes_nothing_refuted.
