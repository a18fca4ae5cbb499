(** Properties of the mapping of a structure. *)
From Coq Require Import List Arith ZArith Bool Ascii String Lia.
From Verif Require Import Base BaseProofs TextModel TextSpec TreeModel TreeSpec ParamTypeModel SyncModel DomainSpec MapModel MapSpec MapProofs.
Import ListNotations.
Local Open Scope nat_scope.

(** ** C42: mapping strings *)

(** Every mapping string is a list of keys and values, in one way. *)
Theorem C42_written : forall raw, exists kvs, written raw kvs /\ forall kvs', written raw kvs' -> kvs' = kvs.
Proof.
  intros raw. destruct (written_items raw) as [kvs W]. exists kvs. split; auto. intros kvs' W'.
  rewrite (written_unique _ _ W), (written_unique _ _ W'). auto.
Qed.
Print Assumptions C42_written.

(** It is accepted exactly when the keys are distinct, and a lookup gives the value written with the key. *)
Theorem C42_accepted : forall raw kvs, written raw kvs -> (NoDup (map fst kvs) <-> exists d, md_init raw = Some d).
Proof.
  intros raw kvs W. pose proof (md_init_spec raw kvs W) as H. destruct (md_init raw) as [d|].
  - split; [eauto|tauto].
  - split; [contradiction|]. intros [d E]. discriminate.
Qed.
Print Assumptions C42_accepted.

Theorem C42_lookup : forall raw kvs d, written raw kvs -> md_init raw = Some d -> forall k v, md_get d k = Some v <-> In (k, v) kvs.
Proof. intros raw kvs d W E. pose proof (md_init_spec raw kvs W) as H. rewrite E in H. tauto. Qed.
Print Assumptions C42_lookup.

Example C42_nonvacuous :
  written (lit ",Card:hw:0,Device,,") [(lit "Card", lit "hw:0"); (lit "Device", [])]
  /\ (exists d, md_init (lit ",Card:hw:0,Device,,") = Some d /\ md_get d (lit "Card") = Some (lit "hw:0"))
  /\ md_init (lit "Card:0,Device:1,Card:2") = None.
Proof.
  split; [|split].
  - exists [lit "Card:hw:0"; lit "Device"]. split.
    + apply (proj1 (TextProofs.split_merge_spec _ _ _)). reflexivity.
    + constructor; [split; [intros H; simpl in H; repeat (destruct H as [H|H]; [discriminate|]); contradiction|left; reflexivity]|].
      constructor; [split; [intros H; simpl in H; repeat (destruct H as [H|H]; [discriminate|]); contradiction|right; auto]|]. constructor.
  - eexists. split; reflexivity.
  - reflexivity.
Qed.

(** ** C41: amendment *)

(** Up to the first '%' that designates nothing, every designation is replaced and the rest is kept; from there on nothing is
    replaced. *)
Theorem C41_amended_prefix : forall first nb cx s, 1 <= nb <= 9 -> first + nb <= List.length cx ->
  exists a b w, amend first nb cx s = Ok (w ++ b) /\ s = a ++ b
    /\ all_designate (amend_value cx first nb) a /\ amended (amend_value cx first nb) a w
    /\ (b = [] \/ stray (amend_value cx first nb) b).
Proof. exact amend_spec. Qed.
Print Assumptions C41_amended_prefix.

(** The full claim, for the texts where every '%' designates a key.  Missing: a '%' that designates nothing must not prevent the
    following ones from being replaced, see [C41_refuted]. *)
Theorem C41_amended_partial : forall first nb cx s, 1 <= nb <= 9 -> first + nb <= List.length cx ->
  all_designate (amend_value cx first nb) s -> exists w, amend first nb cx s = Ok w /\ amended (amend_value cx first nb) s w.
Proof.
  intros first nb cx s H1 H2 AD. destruct (amend_spec first nb cx s H1 H2) as [a [b [w [E [-> [A1 [A2 A3]]]]]]].
  exists (w ++ b). split; auto. assert (b = []) as ->.
  { destruct A3 as [|[r [-> S]]]; auto. exfalso. clear - AD A1 S. revert AD. induction A1 as [|d t s D A1 IH|c s N A1 IH]; intros AD.
    - simpl in AD. inversion AD as [|d t s D _|c s N _]; subst; [apply (S d t s); auto|congruence].
    - simpl in AD. apply IH. inversion AD as [|d' t' s' D' A'|c s' N' _]; subst; auto. congruence.
    - simpl in AD. apply IH. inversion AD as [|d' t' s' D' A'|c' s' N' A']; subst; auto. congruence. }
  rewrite !app_nil_r. auto.
Qed.
Print Assumptions C41_amended_partial.

(** A text without '%' is kept. *)
Theorem C41_kept : forall first nb cx s, ~ In "%"%char s -> amend first nb cx s = Ok s.
Proof.
  intros first nb cx s N. induction s as [|c s IH]; auto. cbn [amend].
  destruct (char_eqb c "%") eqn:E; [apply char_eqb_eq in E; subst; exfalso; apply N; left; auto|].
  rewrite IH; auto. intros H. apply N. right. auto.
Qed.
Print Assumptions C41_kept.

(** A value starting with a quote loses its first and its last character before the amendment; other values are amended as
    they are. *)
Theorem C41_quotes : forall first nb cx v, (forall m z, v = "'"%char :: m ++ [z] -> formatted_value first nb cx v = amend first nb cx m)
  /\ ((forall m z, v <> "'"%char :: m ++ [z]) -> formatted_value first nb cx v = amend first nb cx v).
Proof.
  intros first nb cx v. split.
  - intros m z ->. unfold formatted_value. rewrite (proj2 (char_eqb_eq _ _) eq_refl). cbn [List.length]. rewrite app_length. cbn [List.length].
    replace (2 <=? S (List.length m + 1)) with true by (symmetry; apply Nat.leb_le; lia). cbn [andb].
    replace (S (List.length m + 1) - 2) with (List.length m) by lia. rewrite firstn_app, Nat.sub_diag, firstn_all, app_nil_r. auto.
  - intros N. unfold formatted_value. destruct v as [|c r]; auto. destruct (char_eqb c "'") eqn:E; auto. apply char_eqb_eq in E. subst c.
    destruct (2 <=? List.length ("'"%char :: r)) eqn:L; auto. exfalso. apply Nat.leb_le in L. destruct (exists_last (l := r)) as [m [z ->]].
    { destruct r; [simpl in L; lia|discriminate]. }
    apply (N m z). auto.
Qed.
Print Assumptions C41_quotes.

Definition two_keys : list (option (str * str)) := [Some (lit "Card", lit "hw"); Some (lit "Amend1", lit "Left"); Some (lit "Amend2", lit "9")].

Example C41_nonvacuous :
  all_designate (amend_value two_keys 1 2) (lit "Vol %1 %2")
  /\ formatted_value 1 2 two_keys (lit "'Vol %1 %2'") = Ok (lit "Vol Left 9")
  /\ ~ In "%"%char (lit "Vol").
Proof.
  split; [|split; [reflexivity|]].
  - assert (designates (amend_value two_keys 1 2) "1"%char (lit "Left")) as D1 by (exists 1; split; [lia|split; reflexivity]).
    assert (designates (amend_value two_keys 1 2) "2"%char (lit "9")) as D2 by (exists 2; split; [lia|split; reflexivity]).
    cbn. repeat (apply ad_char; [discriminate|]). apply (ad_subst _ _ _ _ D1). apply ad_char; [discriminate|]. apply (ad_subst _ _ _ _ D2). constructor.
  - intros H. repeat (destruct H as [H|H]; [discriminate|]). contradiction.
Qed.

(** Finding: the key 1 is defined, but "%1" is not replaced when it follows a "%2" that is not. *)
Theorem C41_refuted : exists first nb cx s w, 1 <= nb <= 9 /\ first + nb <= List.length cx
  /\ amended (amend_value cx first nb) s w /\ amend first nb cx s <> Ok w.
Proof.
  exists 0, 2, [Some (lit "Amend1", lit "Left"); None], (lit "%2 %1"), (lit "%2 Left"). split; [lia|]. split; [simpl; lia|]. split.
  - cbn. apply am_keep.
    + intros d t r _ H [n [A [B C]]]. inversion H; subst. assert (bval "2"%char = 50%Z) as E by reflexivity. rewrite E in B. assert (n = 2) by lia. subst n. discriminate.
    + apply am_keep; [intros d t r H; discriminate|]. apply am_keep; [intros d t r H; discriminate|]. apply (am_subst _ "1"%char (lit "Left") [] []); [|constructor].
      exists 1. split; [lia|]. split; reflexivity.
  - vm_compute. discriminate.
Qed.
Print Assumptions C41_refuted.

(** ** C40: subsystem objects *)

(** The mapping of the children of a subsystem succeeds exactly when every element reached is accepted; otherwise an error is
    reported. *)
Theorem C40_accepted : forall sb nm cs, sb_virtual sb = false -> few_keys sb -> distinct_keys (sb_maps sb) -> tree_keys (Inst nm KdSubsystem [] cs) ->
  (mappable sb (sub_base sb) (Inst nm KdSubsystem [] cs) <-> exists objs, map_subsystem sb cs = Ok objs)
  /\ (~ mappable sb (sub_base sb) (Inst nm KdSubsystem [] cs) <-> map_subsystem sb cs = Err).
Proof.
  intros sb nm cs V F D T. pose proof (map_subsystem_spec sb nm cs V F D T) as H. unfold spec_of in H. destruct (map_subsystem sb cs) as [objs| | |]; try contradiction.
  - destruct H as [H _]. split; split; eauto; try contradiction; discriminate.
  - split; split; auto; try contradiction. intros [objs E]. discriminate.
Qed.
Print Assumptions C40_accepted.

(** The objects created: one on each element reached that has the key of a creator, with the values collected from the
    subsystem, the ancestors and the element. *)
Theorem C40_objects : forall sb nm cs objs, sb_virtual sb = false -> few_keys sb -> distinct_keys (sb_maps sb) -> tree_keys (Inst nm KdSubsystem [] cs) ->
  map_subsystem sb cs = Ok objs -> objects_of sb (sub_base sb) (Inst nm KdSubsystem [] cs) objs.
Proof.
  intros sb nm cs objs V F D T E. pose proof (map_subsystem_spec sb nm cs V F D T) as H. rewrite E in H. apply H.
Qed.
Print Assumptions C40_objects.

(** Every object was given the keys its creator requires. *)
Theorem C40_required : forall sb nm cs objs o c, sb_virtual sb = false -> few_keys sb -> distinct_keys (sb_maps sb) -> tree_keys (Inst nm KdSubsystem [] cs) ->
  map_subsystem sb cs = Ok objs -> In o objs -> nth_error (sb_creators sb) (ob_creator o) = Some c ->
  forall i k, nth_error (sb_keys sb) i = Some k -> Z.testbit (cr_mask c) (Z.of_nat i) = true ->
  exists v, cx_get (ob_ctx o) i = Ok v /\ collected sb (sub_base sb) (Inst nm KdSubsystem [] cs) (ob_pos o) i v.
Proof.
  intros sb nm cs objs o c V F D T E I C i k K B. pose proof (map_subsystem_spec sb nm cs V F D T) as H. rewrite E in H. destruct H as [M [O1 [O2 O3]]].
  destruct (O3 o I) as [x [c' [A1 [A2 [A3 A4]]]]]. destruct (proj1 (O1 (ob_pos o)) (in_map ob_pos _ _ I)) as [x' [R Kx]].
  assert (x' = x) as -> by (destruct R as [R _]; congruence). assert (c' = c) as -> by (destruct A2 as [A2 _]; congruence).
  assert (in_maps x <> []) as N. { intros N. destruct Kx as [j [cc [v [_ [G _]]]]]. rewrite N in G. apply (given_nil _ _ G). }
  destruct (M _ _ R N) as [_ _ AC]. destruct (AC _ _ _ A2) as [_ AC2]. destruct (AC2 i) as [w Hw]; auto; [apply nth_error_Some; congruence|].
  exists w. split; auto. unfold cx_get. rewrite (proj2 (A4 i k w)); auto.
Qed.
Print Assumptions C40_required.

(** At most one object is on the way from the root to an element, in the whole system, and the objects are all different. *)
Theorem C40_one_object : forall subs objs names nm hw, subs_ok subs -> map_subsystems subs = Ok objs ->
  let y := Sys (Elem nm KdSystem (sub_elems names subs)) (fun p => rank p (holders subs objs 0) 0) hw in
  one_syncer y /\ (forall p q s, sy_own y p = Some s -> sy_own y q = Some s -> p = q).
Proof.
  intros subs objs names nm hw OK M y. split.
  - intros p q s t Hp Hq A. simpl in Hp, Hq. apply (holders_apart subs objs); auto.
    + pose proof (rank_spec (holders subs objs 0) p 0) as R. rewrite Hp in R. destruct R as [i [_ R]]. apply (nth_error_In _ _ R).
    + pose proof (rank_spec (holders subs objs 0) q 0) as R. rewrite Hq in R. destruct R as [i [_ R]]. apply (nth_error_In _ _ R).
  - intros p q s Hp Hq. simpl in Hp, Hq. pose proof (rank_spec (holders subs objs 0) p 0) as R1. pose proof (rank_spec (holders subs objs 0) q 0) as R2.
    rewrite Hp in R1. rewrite Hq in R2. destruct R1 as [i [-> R1]], R2 as [j [E R2]]. simpl in E. subst j. congruence.
Qed.
Print Assumptions C40_one_object.

(** The elements holding an object: the virtual subsystems, and the elements reached that have the key of a creator. *)
Theorem C40_covered : forall subs objs names nm hw p, subs_ok subs -> map_subsystems subs = Ok objs ->
  let y := Sys (Elem nm KdSystem (sub_elems names subs)) (fun p => rank p (holders subs objs 0) 0) hw in
  (sy_own y p <> None <-> exists i sb cs r, nth_error subs i = Some (sb, cs) /\ p = i :: r /\
     ((sb_virtual sb = true /\ r = []) \/ (sb_virtual sb = false /\ exists x, reached sb (Inst [] KdSubsystem [] cs) r x /\ keyed sb x))).
Proof.
  intros subs objs names nm hw p OK M y. simpl. pose proof (map_subsystems_nth _ _ M) as F.
  assert (rank p (holders subs objs 0) 0 <> None <-> In p (holders subs objs 0)) as ->.
  { pose proof (rank_spec (holders subs objs 0) p 0) as R. destruct (rank p (holders subs objs 0) 0).
    - destruct R as [i [_ R]]. split; [intros _; apply (nth_error_In _ _ R)|discriminate].
    - tauto. }
  rewrite holders_In by auto. simpl.
  assert (forall i sb cs os, nth_error subs i = Some (sb, cs) -> nth_error objs i = Some os -> sb_virtual sb = false ->
     forall r, In r (map ob_pos os) <-> exists x, reached sb (Inst [] KdSubsystem [] cs) r x /\ keyed sb x) as OB.
  { intros i sb cs os A B V r. destruct (OK sb cs (nth_error_In _ _ A)) as [K1 [K2 K3]].
    pose proof (map_subsystem_spec sb [] cs V K1 K2 (tree_keys_root _ _ _ K3)) as S.
    rewrite (Forall2_nth_error _ _ _ _ _ F i _ _ A B : map_subsystem sb cs = Ok os) in S. destruct S as [_ [O _]]. apply O. }
  split.
  - intros [i [sb [cs [os [A [B C]]]]]]. destruct C as [[V ->]|[V [o [I ->]]]].
    + exists i, sb, cs, []. auto.
    + exists i, sb, cs, (ob_pos o). split; auto. split; auto. right. split; auto. apply (OB i sb cs os A B V). apply in_map. auto.
  - intros [i [sb [cs [r [A [-> C]]]]]]. assert (exists os, nth_error objs i = Some os) as [os B].
    { assert (i < List.length objs) as L.
      { assert (List.length subs = List.length objs) as <- by (clear - F; induction F; simpl; auto). apply nth_error_Some. congruence. }
      destruct (nth_error objs i) as [os|] eqn:B; eauto. apply nth_error_None in B. lia. }
    exists i, sb, cs, os. split; auto. split; auto. destruct C as [[V ->]|[V C]]; [left; auto|right]. split; auto.
    apply (OB i sb cs os A B V) in C. apply in_map_iff in C. destruct C as [o [<- I]]. exists o. auto.
Qed.
Print Assumptions C40_covered.

(** *** A concrete case *)

Fixpoint nodup_b (l : list str) : bool := match l with [] => true | x :: r => negb (existsb (str_eqb x) r) && nodup_b r end.
Lemma nodup_b_spec : forall l, nodup_b l = true -> NoDup l.
Proof.
  induction l as [|x l IH]; simpl; intros H; constructor; apply andb_true_iff in H; destruct H as [H1 H2]; auto.
  intros I. rewrite (proj2 (existsb_exists (str_eqb x) l)) in H1; [discriminate|]. exists x. split; auto. apply str_eqb_refl.
Qed.
Fixpoint tree_keys_b (e : inst) : bool := match e with Inst _ _ ms cs => forallb (fun d => nodup_b (map fst d)) ms && forallb tree_keys_b cs end.
Lemma tree_keys_b_spec : forall e, tree_keys_b e = true -> tree_keys e.
Proof.
  induction e as [nm k ms cs IH] using inst_ind_nested. intros H p x E. simpl in H. apply andb_true_iff in H. destruct H as [H1 H2]. destruct p as [|i p]; simpl in E.
  - inversion E; subst. intros d Hd. simpl in Hd. rewrite forallb_forall in H1. apply nodup_b_spec. auto.
  - destruct (nth_error cs i) as [c|] eqn:N; [|discriminate]. rewrite Forall_forall in IH. rewrite forallb_forall in H2. pose proof (nth_error_In _ _ N) as I.
    apply (IH c I (H2 c I) p x E).
Qed.

Definition demo_sub : subsystem :=
  Subsys [[(lit "Card", lit "hw:0")]] [lit "Card"; lit "Device"] [Creator (lit "Control") 3 4; Creator (lit "Bytes") 1 64] false.
Definition demo_int : ekind := KdParam (PInt false 2 0 100).
Definition demo_children : list inst :=
  [ Inst (lit "codec") KdComponent [[(lit "Device", lit "7")]; [(lit "Device", lit "8")]]
      [ Inst (lit "volume") demo_int [[(lit "Control", lit "Volume")]] [];
        Inst (lit "raw") KdBlock [[(lit "Bytes", lit "3")]] [Inst (lit "a") demo_int [] []; Inst (lit "b") demo_int [[(lit "Control", [])]] []] ];
    Inst (lit "other") demo_int [[(lit "Bytes", lit "4")]] [] ].

Example C40_nonvacuous :
  sb_virtual demo_sub = false /\ few_keys demo_sub /\ distinct_keys (sb_maps demo_sub) /\ tree_keys (Inst (lit "sub") KdSubsystem [] demo_children)
  /\ map_subsystem demo_sub demo_children =
       Ok [Object [0; 0] 0 (lit "Volume") [Some (lit "Card", lit "hw:0"); Some (lit "Device", lit "7")];
           Object [0; 1] 1 (lit "3") [Some (lit "Card", lit "hw:0"); Some (lit "Device", lit "7")];
           Object [1] 1 (lit "4") [Some (lit "Card", lit "hw:0"); None]]
  /\ subs_ok [(demo_sub, demo_children)].
Proof.
  assert (distinct_keys (sb_maps demo_sub)) as D by (intros d [<-|[]]; apply nodup_b_spec; reflexivity).
  split; auto. split; [unfold few_keys; simpl; lia|]. split; auto. split; [apply tree_keys_b_spec; reflexivity|]. split; [vm_compute; reflexivity|].
  intros sb cs [E|[]]. injection E as <- <-. split; [unfold few_keys; simpl; lia|]. split; auto. intros c Hc. apply tree_keys_b_spec.
  destruct Hc as [<-|[<-|[]]]; reflexivity.
Qed.

(** An error when a required key is missing, when a key is given twice, when a parameter has no object. *)
Example C40_errors :
  map_subsystem demo_sub [Inst (lit "volume") demo_int [[(lit "Control", lit "Volume")]] []] = Err
  /\ map_subsystem demo_sub [Inst (lit "volume") demo_int [[(lit "Bytes", lit "1"); (lit "Card", lit "2")]] []] = Err
  /\ map_subsystem demo_sub [Inst (lit "volume") demo_int [[(lit "Other", lit "1")]] []] = Err.
Proof. repeat split; vm_compute; reflexivity. Qed.

(** Finding: with more than 32 context keys, creating an object is undefined, whatever its mask (Subsystem.cpp:394). *)
Theorem C40_many_keys_refuted : exists sb cs, sb_virtual sb = false /\ List.length (sb_keys sb) = 33 /\ distinct_keys (sb_maps sb)
  /\ tree_keys (Inst [] KdSubsystem [] cs) /\ map_subsystem sb cs = UB.
Proof.
  exists (Subsys [] (repeat (lit "Card") 33) [Creator (lit "Control") 0 4] false), [Inst (lit "volume") demo_int [[(lit "Control", lit "Volume")]] []].
  split; auto. split; auto. split; [intros d []|]. split; [apply tree_keys_b_spec; reflexivity|]. vm_compute. reflexivity.
Qed.
Print Assumptions C40_many_keys_refuted.

(** ** C60: reading the context of an object *)

(** A context value is read by its index, as a text or as an integer. *)
Theorem C60_by_index : forall sb base e p cx i k v, context_of sb base e p cx -> nth_error (sb_keys sb) i = Some k ->
  collected sb base e p i v -> cx_get cx i = Ok v /\ cx_get_int cx i = Ok (strtoull0 v) /\ cx_set cx i = Ok true.
Proof.
  intros sb base e p cx i k v [L C] K H. pose proof (proj2 (C i k v) (conj K H)) as E. unfold cx_get, cx_get_int, cx_set. rewrite E. auto.
Qed.
Print Assumptions C60_by_index.

Theorem C60_not_set : forall sb base e p cx i, context_of sb base e p cx -> i < List.length (sb_keys sb) ->
  (forall v, ~ collected sb base e p i v) -> cx_set cx i = Ok false /\ cx_get_int cx i = Ok 0%Z.
Proof.
  intros sb base e p cx i [L C] K H. unfold cx_set, cx_get_int. destruct (nth_error cx i) as [[[k v]|]|] eqn:E; auto.
  - exfalso. apply (H v). apply (C i k v). auto.
  - apply nth_error_None in E. lia.
Qed.
Print Assumptions C60_not_set.

(** Finding: a lookup by key gives the key, never the value (MappingContext.cpp:74). *)
Theorem C60_by_key_refuted : exists sb base e p cx i k v, context_of sb base e p cx /\ nth_error (sb_keys sb) i = Some k
  /\ collected sb base e p i v /\ cx_find cx k <> Some v.
Proof.
  set (o := Object [1] 1 (lit "4") [Some (lit "Card", lit "hw:0"); None]).
  exists demo_sub, (sub_base demo_sub), (Inst (lit "sub") KdSubsystem [] demo_children), [1], (ob_ctx o), 0, (lit "Card"), (lit "hw:0").
  destruct C40_nonvacuous as [A1 [A2 [A3 [A4 [A5 _]]]]]. destruct (C40_objects _ _ _ _ A1 A2 A3 A4 A5) as [_ [_ O]].
  destruct (O o) as [x [c [_ [_ C]]]]; [right; right; left; reflexivity|]. split; auto. split; auto. split; [|vm_compute; discriminate].
  apply (proj2 C 0 (lit "Card") (lit "hw:0")). reflexivity.
Qed.
Print Assumptions C60_by_key_refuted.

Example C60_nonvacuous : exists cx, context_of demo_sub (sub_base demo_sub) (Inst (lit "sub") KdSubsystem [] demo_children) [0; 0] cx
  /\ collected demo_sub (sub_base demo_sub) (Inst (lit "sub") KdSubsystem [] demo_children) [0; 0] 1 (lit "7") /\ cx_get_int cx 1 = Ok 7%Z.
Proof.
  destruct C40_nonvacuous as [A1 [A2 [A3 [A4 [A5 _]]]]]. destruct (C40_objects _ _ _ _ A1 A2 A3 A4 A5) as [_ [_ O]].
  set (o := Object [0; 0] 0 (lit "Volume") [Some (lit "Card", lit "hw:0"); Some (lit "Device", lit "7")]).
  destruct (O o) as [x [c [_ [_ C]]]]; [left; reflexivity|]. exists (ob_ctx o). split; auto. split; [|vm_compute; reflexivity].
  apply (proj2 C 1 (lit "Device") (lit "7")). reflexivity.
Qed.
