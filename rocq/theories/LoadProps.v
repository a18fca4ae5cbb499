(** What the parameters hold once the framework is started (C48). *)
From Coq Require Import List Arith ZArith Bool Ascii String Sorted Lia.
From Verif Require Import Base BaseProofs TextModel ParamTypeModel BlackboardModel BlackboardProofs CriterionModel RuleModel TreeModel TreeSpec TreeProofs MemSpec MemProofs SyncModel SyncProofs
  DomainModel DomainSpec DomainProofs DomainsInv MgrModel MgrSpec MgrSkel Demo ApplySpec ApplyProofs RogueProofs MgrFlow LoadModel LoadSpec LoadProofs.
Import ListNotations.
Local Open Scope nat_scope.

(** The hypotheses on the domains read from the files: those of [loadable], for the memory as it is allocated. *)
Definition loadable_domains (y : system) (cs : list criterion) (s : domains) : Prop := loadable y cs s (initial_blackboard (sy_root y)).

Lemma loadable_any : forall y cs s bb, loadable_domains y cs s -> List.length bb = footprint (sy_root y) -> loadable y cs s bb.
Proof. intros y cs s bb [A [B [C _]]] L. split; auto. Qed.

Lemma start_up_inv : forall y answer allowed cs s, system_ok y -> answers_ok y answer -> loadable_domains y cs s ->
  exists bb m, ofold (back_one y answer) (back_syncers y cs s) (initial_blackboard (sy_root y)) = Ok bb /\ loadable y cs s bb /\ load y allowed cs s bb = Ok m
    /\ start_up y answer allowed cs s = Ok m.
Proof.
  intros y answer al cs s Sy Ao Hl. destruct (fold_ok y answer (back_syncers y cs s) (initial_blackboard (sy_root y)) (proj1 (proj1 Sy)) Ao) as [bb [H1 H2]].
  { destruct Hl as [_ [_ [_ L]]]. auto. }
  pose proof (loadable_any y cs s bb Hl H2) as Hl2. destruct (load_ok y al cs s bb Sy Hl2) as [m [s1 [E _]]]. exists bb, m. split; auto. split; auto. split; auto.
  unfold start_up, hw_back_sync. rewrite H1. simpl. auto.
Qed.

(** The start never fails, whatever the hardware gives. *)
Theorem C48_start_total : forall y answer allowed cs s, system_ok y -> answers_ok y answer -> loadable_domains y cs s ->
  exists m, start_up y answer allowed cs s = Ok m /\ reachable y m.
Proof.
  intros y answer al cs s Sy Ao Hl. destruct (start_up_inv y answer al cs s Sy Ao Hl) as [bb [m [_ [H2 [H3 H4]]]]]. exists m. split; auto.
  exists m, [], []. split; [|reflexivity]. exists al, cs, s, bb. auto.
Qed.
Print Assumptions C48_start_total.

Lemma sorted_nodup : forall l, StronglySorted lt l -> NoDup l.
Proof. intros l H. induction H as [|x l H IH F]; constructor; auto. intros C. rewrite Forall_forall in F. specialize (F x C). lia. Qed.

Lemma started_bits : forall y answer allowed cs s m q e o x, system_ok y -> own_apart y -> answers_ok y answer -> loadable_domains y cs s ->
  start_up y answer allowed cs s = Ok m -> param_at (sy_root y) q e -> ~ controlled cs s q -> sy_own y o = Some x -> above o q ->
  exists b1 b2, List.length b1 = footprint (sy_root y) /\ back_one y answer x b1 = Ok b2 /\ same_setting (sy_root y) q 0 (mg_main m) 0 b2.
Proof.
  intros y answer al cs s m q e o x Sy Oa Ao Hl H Hq N O Ab. destruct (start_up_inv y answer al cs s Sy Ao Hl) as [bb [m1 [H1 [H2 [H3 H4]]]]]. rewrite H in H4. inversion H4; subst m1.
  pose proof (uncontrolled_kept y al cs s bb m q e Sy H2 H3 Hq N) as Kp. pose proof Hl as [_ [K [_ L]]].
  destruct (fold_bits y answer (back_syncers y cs s) _ bb q e o x Sy Oa Ao L Hq O Ab) as [_ F]; auto.
  { apply sorted_nodup. apply back_fold_sorted. constructor. }
  assert (In x (back_syncers y cs s)) as I.
  { apply (back_syncers_In y cs s x Sy K (loadable_scoped _ _ _ _ Hl)). exists q, e. split; [apply (proj1 Hq)|]. split; [apply (param_leaf_children (sy_root y) q e); auto; apply (proj1 (proj1 Sy))|]. split; auto.
    exists o. split; [left; auto|]. split; auto. destruct Ab as [r ->]. destruct Hq as [E _]. rewrite elem_at_app in E. destruct (elem_at (sy_root y) o); congruence. }
  destruct (F I) as [b1 [b2 [F1 [F2 [_ F3]]]]]. exists b1, b2. split; auto. split; auto. intros i Hi. rewrite (Kp i Hi). apply F3. auto.
Qed.

(** A parameter that no applicable configuration sets has, once the framework is started, the value the hardware gave, at the
    place of the parameter in what its syncer read. *)
Theorem C48_uncontrolled_read_back_partial : forall y answer allowed cs s m q e o eo x bytes, system_ok y -> own_apart y -> answers_ok y answer -> loadable_domains y cs s ->
  start_up y answer allowed cs s = Ok m -> param_at (sy_root y) q e -> ~ controlled cs s q ->
  sy_own y o = Some x -> above o q -> elem_at (sy_root y) o = Some eo -> (forall t, e_kind eo <> KdBit t) -> answer x = Some bytes ->
  same_setting (sy_root y) q 0 (mg_main m) (offset (sy_root y) o) bytes.
Proof.
  intros y answer al cs s m q e o eo x bytes Sy Oa Ao Hl H Hq N O Ab Eo Nb An. destruct (started_bits y answer al cs s m q e o x Sy Oa Ao Hl H Hq N O Ab) as [b1 [b2 [B1 [B2 B3]]]].
  intros i Hi. rewrite (B3 i Hi). apply (back_writes y answer o eo x q e bytes b1 b2); auto.
Qed.
Print Assumptions C48_uncontrolled_read_back_partial.

(** When the hardware does not answer it has its default value. *)
Theorem C48_uncontrolled_default : forall y answer allowed cs s m q e o eo x, system_ok y -> own_apart y -> answers_ok y answer -> loadable_domains y cs s ->
  start_up y answer allowed cs s = Ok m -> param_at (sy_root y) q e -> ~ controlled cs s q ->
  sy_own y o = Some x -> above o q -> elem_at (sy_root y) o = Some eo -> (forall t, e_kind eo <> KdBit t) -> answer x = None ->
  exists b, same_setting (sy_root y) q 0 (mg_main m) 0 b /\ holds_default (e_kind e) (offset (sy_root y) q) b.
Proof.
  intros y answer al cs s m q e o eo x Sy Oa Ao Hl H Hq N O Ab Eo Nb An. destruct (started_bits y answer al cs s m q e o x Sy Oa Ao Hl H Hq N O Ab) as [b1 [b2 [B1 [B2 B3]]]].
  exists b2. split; auto. destruct (find_owner y o x Oa O ltac:(congruence)) as [t F]. unfold back_one in B2. rewrite F, Eo, An in B2.
  destruct (defaults_at (sy_root y) o eo b1 (proj1 (proj1 Sy)) Eo B1) as [b [D1 [_ [_ D4]]]]. rewrite B2 in D1. inversion D1; subst b. destruct Ab as [r ->].
  destruct Hq as [Hq1 Hq2]. apply (D4 Nb r e); auto. rewrite elem_at_app, Eo in Hq1. auto.
Qed.
Print Assumptions C48_uncontrolled_default.

(** A parameter set by valid settings of an applicable configuration has, once the framework is started, the value recorded there,
    whatever the hardware gave; among several domains, the last in the order of application decides. *)
Theorem C48_controlled_applied : forall y answer allowed cs s m q e l1 d c a l2, system_ok y -> answers_ok y answer -> loadable_domains y cs s ->
  start_up y answer allowed cs s = Ok m -> param_at (sy_root y) q e ->
  apply_order (ds_list s) = l1 ++ d :: l2 -> first_match cs d c -> In a (cf_areas c) -> ar_valid a = true -> above (ar_pos a) q ->
  (forall k kc, In k l2 -> first_match cs k kc -> ~ covers k q) ->
  same_setting (sy_root y) q 0 (mg_main m) (offset (sy_root y) (ar_pos a)) (ar_bb a).
Proof.
  intros y answer al cs s m q e l1 d c a l2 Sy Ao Hl H Hq Eo Fm Ha V Ab La. destruct (start_up_inv y answer al cs s Sy Ao Hl) as [bb [m1 [H1 [H2 [H3 H4]]]]]. rewrite H in H4. inversion H4; subst m1.
  apply (controlled_set y al cs s bb m q e l1 d c a l2); auto.
Qed.
Print Assumptions C48_controlled_applied.

(** A syncer that serves no uncontrolled element is not read: what the hardware would give for it makes no difference. *)
Lemma ofold_same : forall A B (f g : A -> B -> outcome B) l b, (forall x b, In x l -> f x b = g x b) -> ofold f l b = ofold g l b.
Proof.
  intros A B f g l. induction l as [|x l IH]; intros b H; simpl; auto. rewrite (H x b) by (left; auto). destruct (g x b); simpl; auto. apply IH. intros; apply H; right; auto.
Qed.

Theorem C48_others_not_read_partial : forall y answer answer' allowed cs s, system_ok y -> loadable_domains y cs s ->
  (forall q e x, elem_at (sy_root y) q = Some e -> e_children e = [] -> ~ controlled cs s q -> serves y x q -> answer x = answer' x) ->
  start_up y answer allowed cs s = start_up y answer' allowed cs s.
Proof.
  intros y answer answer' al cs s Sy Hl H. unfold start_up, hw_back_sync.
  rewrite (ofold_same _ _ (back_one y answer) (back_one y answer')); auto. intros x bb Hx.
  apply (back_syncers_In y cs s x Sy (proj1 (proj2 Hl)) (loadable_scoped _ _ _ _ Hl)) in Hx. destruct Hx as [q [e [E [C [N S]]]]].
  unfold back_one. rewrite (H q e x E C N S). auto.
Qed.
Print Assumptions C48_others_not_read_partial.

(** In simulation an uncontrolled parameter has its default value. *)
Theorem C48_simulation_default_partial : forall y allowed cs s q e, system_ok y -> loadable_domains y cs s ->
  exists m, start_up_sim y allowed cs s = Ok m
  /\ (param_at (sy_root y) q e -> (forall t, e_kind e <> KdBit t) -> ~ controlled cs s q ->
      exists b, same_setting (sy_root y) q 0 (mg_main m) 0 b /\ holds_default (e_kind e) (offset (sy_root y) q) b).
Proof.
  intros y al cs s q e Sy Hl. pose proof Hl as [_ [K [_ L]]]. pose proof (proj1 (proj1 Sy)) as W.
  destruct (sim_ok y (back_sync_elements cs s (sy_root y) []) _ W L) as [bb [B1 B2]].
  pose proof (loadable_any y cs s bb Hl B2) as Hl2. destruct (load_ok y al cs s bb Sy Hl2) as [m [s1 [E _]]]. exists m.
  split; [unfold start_up_sim, sim_back_sync; fold (sim_one y); rewrite B1; auto|]. intros Hq Nb N.
  pose proof (uncontrolled_kept y al cs s bb m q e Sy Hl2 E Hq N) as Kp.
  pose proof (param_leaf_children (sy_root y) q e W Hq) as Lf.
  destruct (proj2 (leaf_read y cs s q e K (loadable_scoped _ _ _ _ Hl) (proj1 Hq) Lf) N) as [p [P1 P2]].
  destruct (back_elements_apart y cs s) as [Nd Ap].
  destruct (elem_at (sy_root y) p) as [e0|] eqn:Ep; [|exfalso; apply (back_elements_exist y cs s p P1); auto].
  destruct (proj2 (sim_bits y _ _ bb q e Sy L Hq Nd Ap B1) p e0 P1 P2 Ep) as [b1 [b2 [S1 [S2 S3]]]]. exists b2.
  split; [intros i Hi; rewrite (Kp i Hi); apply S3; auto|].
  destruct (defaults_at (sy_root y) p e0 b1 W Ep S1) as [b [D1 [_ [_ D4]]]]. rewrite S2 in D1. inversion D1; subst b. destruct P2 as [r ->].
  destruct Hq as [Hq1 Hq2]. rewrite elem_at_app, Ep in Hq1. apply (fun X => D4 X r e); auto. intros t Kt.
  destruct r as [|i r]; [simpl in Hq1; apply (Nb t); destruct e0; inversion Hq1; subst; auto|]. simpl in Hq1.
  rewrite (param_leaf_children (sy_root y) p e0 W) in Hq1; [destruct i; discriminate|]. split; auto. rewrite Kt. auto.
Qed.
Print Assumptions C48_simulation_default_partial.

(** ** Examples *)

(** The domains of the demonstration system, loaded: the block is controlled, the bit block, the string and [x] are not. *)
Definition demo_answer (x : nat) : option (list byte) :=
  match x with
  | 10 => Some (repeat (ascii_of_nat 7) 7)
  | 11 => Some [ascii_of_nat 21]
  | 20 => Some [ascii_of_nat 44; ascii_of_nat 1]
  | _ => None
  end.

Lemma demo_answers_ok : answers_ok demo demo_answer.
Proof.
  intros o e x bytes O E A. apply demo_own_cases in O as C. cbn [sy_own demo] in O.
  simpl in C. destruct C as [<-|[<-|[<-|[<-|[]]]]]; vm_compute in O; inversion O; subst x; vm_compute in E; inversion E; subst e; vm_compute in A; inversion A; subst bytes; reflexivity.
Qed.

Lemma demo_own_apart : own_apart demo.
Proof.
  intros p q s Hp Hq. apply demo_own_cases in Hp as Cp. apply demo_own_cases in Hq as Cq. cbn [sy_own demo] in *.
  simpl in Cp, Cq. destruct Cp as [<-|[<-|[<-|[<-|[]]]]]; destruct Cq as [<-|[<-|[<-|[<-|[]]]]]; vm_compute in Hp, Hq; congruence.
Qed.

Lemma demo_loadable : loadable_domains demo demo_crits (mg_doms demo_state).
Proof.
  destruct (reachable_ok demo demo_state (demo_ok _) demo_reachable) as [M [R _]]. split; [exact demo_crits_ok|]. split; [apply M|].
  assert (mg_crits demo_state = demo_crits) as E by (vm_compute; reflexivity). split; [|reflexivity].
  unfold rules_ok in R. rewrite E in R. exact R.
Qed.

Definition demo_loaded : mgr := match start_up demo demo_answer true demo_crits (mg_doms demo_state) with Ok m => m | _ => demo_start end.

Definition shown (m : mgr) (path : string) : option str :=
  match get_parameter demo (lit path) m with Ok t => Some t | _ => None end.

Example C48_nonvacuous :
  start_up demo demo_answer true demo_crits (mg_doms demo_state) = Ok demo_loaded
  /\ map (shown demo_loaded) ["/Sys/Sub/blk/a"; "/Sys/Sub/blk/arr"; "/Sys/Sub/blk/b"; "/Sys/Sub/bits/low"; "/Sys/Sub/bits/high"; "/Sys/Sub/str"; "/Sys/Aux/x"]%string
     = map (fun t => Some (lit t)) ["200"; "0 1 0"; "0"; "5"; "1"; ""; "300"]%string
  /\ reachable demo demo_loaded.
Proof.
  assert (start_up demo demo_answer true demo_crits (mg_doms demo_state) = Ok demo_loaded) as E by (vm_compute; reflexivity).
  split; [exact E|]. split; [vm_compute; reflexivity|].
  destruct (C48_start_total demo demo_answer true demo_crits (mg_doms demo_state) (demo_ok _) demo_answers_ok demo_loadable) as [m [H R]]. rewrite E in H. assert (demo_loaded = m) as Em by congruence. rewrite Em. exact R.
Qed.

(** A check of [controlled] by computation. *)
Definition controlled_b (cs : list criterion) (s : domains) (q : list nat) : bool :=
  existsb (fun d => match dm_applicable cs d with Some c => existsb (fun a => ar_valid a && above_b (ar_pos a) q) (cf_areas c) | None => false end) (ds_list s).

Lemma controlled_b_ok : forall cs s q, (forall d, In d (ds_list s) -> scoped cs d) -> (controlled_b cs s q = true <-> controlled cs s q).
Proof.
  intros cs s q Sc. unfold controlled_b, controlled. rewrite existsb_exists. split.
  - intros [d [Hd H]]. destruct (dm_applicable cs d) as [c|] eqn:A; [|discriminate]. apply existsb_exists in H. destruct H as [a [Ha H]]. apply andb_true_iff in H. destruct H as [H1 H2].
    exists d, c, a. split; auto. split; [apply (applicable_first cs d c (Sc d Hd)); auto|]. split; auto. split; auto. apply above_b_spec. auto.
  - intros [d [c [a [Hd [Fm [Ha [V Ab]]]]]]]. exists d. split; auto. apply (applicable_first cs d c (Sc d Hd)) in Fm. rewrite Fm. apply existsb_exists. exists a. split; auto. rewrite V. apply above_b_spec. auto.
Qed.

Lemma controlled_b_not : forall cs s q, (forall d, In d (ds_list s) -> scoped cs d) -> controlled_b cs s q = false -> ~ controlled cs s q.
Proof. intros cs s q Sc H C. apply controlled_b_ok in C; auto. congruence. Qed.

(** The hypotheses of the theorems hold there: [/Sys/Aux/x] is read back, [/Sys/Sub/blk/a] is set by a configuration. *)
Example C48_uncontrolled_nonvacuous :
  param_at (sy_root demo) [1; 0] (Elem (lit "x") demo_u16 []) /\ ~ controlled demo_crits (mg_doms demo_state) [1; 0]
  /\ sy_own demo [1] = Some 20 /\ above [1] [1; 0] /\ demo_answer 20 <> None /\ demo_answer 12 = None
  /\ ~ controlled demo_crits (mg_doms demo_state) [0; 2] /\ controlled demo_crits (mg_doms demo_state) [0; 0; 0].
Proof.
  pose proof (loadable_scoped _ _ _ _ demo_loadable) as Sc.
  split; [split; reflexivity|]. split; [apply (controlled_b_not _ _ _ Sc); vm_compute; reflexivity|].
  split; [reflexivity|]. split; [exists [0]; reflexivity|]. split; [discriminate|]. split; [reflexivity|].
  split; [apply (controlled_b_not _ _ _ Sc); vm_compute; reflexivity|apply (controlled_b_ok _ _ _ Sc); vm_compute; reflexivity].
Qed.

(** ** What does not hold *)

(** A domain on [/Sys/Sub/blk/a] alone: [b], of the same block, is not controlled, and they have the same syncer. *)
Definition part_cmds : list cmd :=
  [CTuning true []; CCreateDomain (lit "P"); CAddElement (lit "P") (lit "/Sys/Sub/blk/a"); CCreateConfig (lit "P") (lit "C"); CSetRule (lit "P") (lit "C") (lit "All{}"); CTuning false []].
Definition part_state : mgr := demo_after demo part_cmds.

Lemma part_loadable : loadable_domains demo demo_crits (mg_doms part_state).
Proof.
  assert (reachable demo part_state) as Hr by (exists demo_start, part_cmds, (repeat true 6); split; [exact demo_started|vm_compute; reflexivity]).
  destruct (reachable_ok demo part_state (demo_ok _) Hr) as [M [R _]]. split; [exact demo_crits_ok|]. split; [exact (proj1 M)|].
  assert (mg_crits part_state = demo_crits) as E by (vm_compute; reflexivity). split; [|reflexivity].
  unfold rules_ok in R. rewrite E in R. exact R.
Qed.

(** A controlled parameter is read from the hardware too when its syncer serves an uncontrolled one; the recorded value is applied
    afterwards. *)
Theorem C48_controlled_read_refuted : exists answer bb q e, answers_ok demo answer /\ loadable_domains demo demo_crits (mg_doms part_state)
  /\ param_at (sy_root demo) q e /\ controlled demo_crits (mg_doms part_state) q
  /\ hw_back_sync demo answer demo_crits (mg_doms part_state) (initial_blackboard (sy_root demo)) = Ok bb
  /\ ~ same_setting (sy_root demo) q 0 bb 0 (initial_blackboard (sy_root demo)).
Proof.
  pose proof (loadable_scoped _ _ _ _ part_loadable) as Sc.
  exists demo_answer. eexists. exists [0; 0; 0], (Elem (lit "a") demo_u16 []). split; [exact demo_answers_ok|]. split; [exact part_loadable|]. split; [split; reflexivity|].
  split; [apply (controlled_b_ok _ _ _ Sc); vm_compute; reflexivity|]. split; [vm_compute; reflexivity|]. intros H.
  assert (owns (sy_root demo) [0; 0; 0] 0) as O by (exists (Elem (lit "a") demo_u16 []); vm_compute; auto).
  specialize (H 0 O). vm_compute in H. discriminate.
Qed.
Print Assumptions C48_controlled_read_refuted.

(** A bit parameter with a syncer of its own: the memory of the syncer is empty, so nothing is read from the hardware and the
    parameter stays at zero, whatever the hardware holds. *)
Definition lone_bit : system :=
  Sys (Elem (lit "Sys") KdSystem [Elem (lit "Sub") KdSubsystem [Elem (lit "bits") (KdBitBlock 1) [Elem (lit "low") (KdBit (BitModel.BitType 0 3 7 1)) []]]])
      (fun p => match p with [0; 0; 0] => Some 5 | _ => None end) (fun _ _ => true).

Lemma lone_own : forall p s, sy_own lone_bit p = Some s -> p = [0; 0; 0] /\ s = 5.
Proof.
  intros p s H. cbn [sy_own lone_bit] in H. destruct p as [|[|i] [|[|j] [|[|k] [|l p]]]]; try discriminate. inversion H. auto.
Qed.

Theorem C48_lone_bit_not_read_refuted : exists y q e x m, system_ok y /\ own_apart y /\ loadable_domains y demo_crits (Domains [] [] 0) /\ param_at (sy_root y) q e
  /\ ~ controlled demo_crits (Domains [] [] 0) q /\ sy_own y q = Some x
  /\ forall answer, answers_ok y answer -> start_up y answer true demo_crits (Domains [] [] 0) = Ok m.
Proof.
  exists lone_bit, [0; 0; 0], (Elem (lit "low") (KdBit (BitModel.BitType 0 3 7 1)) []), 5, (Mgr (Domains [] [] 0) [zero] false true true false false demo_crits []).
  split.
  { split; [split; [vm_compute; reflexivity|apply check_fields_ok; vm_compute; reflexivity]|]. intros p q s t Hp Hq _. destruct (lone_own _ _ Hp), (lone_own _ _ Hq). congruence. }
  split. { intros p q s Hp Hq. destruct (lone_own _ _ Hp), (lone_own _ _ Hq). congruence. }
  split. { split; [exact demo_crits_ok|]. split; [apply no_domains_ok|]. split; [intros d c r []|reflexivity]. }
  split; [split; reflexivity|]. split; [intros [d [c [a [[] _]]]]|]. split; [reflexivity|].
  intros answer Ha. unfold start_up. assert (hw_back_sync lone_bit answer demo_crits (Domains [] [] 0) (initial_blackboard (sy_root lone_bit)) = Ok [zero]) as ->; [|vm_compute; reflexivity].
  unfold hw_back_sync. replace (back_syncers lone_bit demo_crits (Domains [] [] 0)) with [5] by (vm_compute; reflexivity). cbn [ofold]. unfold back_one.
  replace (find _ _) with (Some (5, [0; 0; 0])) by (vm_compute; reflexivity). replace (elem_at (sy_root lone_bit) [0; 0; 0]) with (Some (Elem (lit "low") (KdBit (BitModel.BitType 0 3 7 1)) [])) by reflexivity.
  destruct (answer 5) as [bytes|] eqn:E; [|vm_compute; reflexivity].
  pose proof (Ha [0; 0; 0] _ 5 bytes eq_refl eq_refl E) as L. destruct bytes; [vm_compute; reflexivity|discriminate].
Qed.
Print Assumptions C48_lone_bit_not_read_refuted.
