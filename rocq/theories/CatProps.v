(** * The domains as lists: what the editing commands answer and do (C69) *)
From Coq Require Import List Arith Lia Bool ZArith Permutation String Ascii.
From Verif Require Import Base BaseProofs TextModel ParamTypeModel BlackboardModel TreeModel TreeSpec TreeProofs MemSpec MemProofs CriterionModel RuleModel RuleSpec RuleProofs SyncModel DomainModel DomainSpec DomainProofs
  DomainInv DomainsInv DomainApply MgrModel MgrSpec MgrProofs SyncProofs MgrFlow MgrSkel ApplySpec ApplyProofs ConfigProofs2 Demo ConfigProps CatSpec CatProofs.
Import ListNotations.
Local Open Scope nat_scope.

(** ** C69 *)

(** An editing command answers and does exactly what [edit] says on the list of domains, their elements and their configurations;
    the commands reserved to the tuning mode answer an error otherwise.  Nothing but the domains changes: not the memory, the calls to
    the hardware, the criteria nor the modes. *)
Theorem C69_edit : forall y m c b m', system_ok y -> names_ok (sy_root y) -> reachable y m -> editing c = true -> step y m c = Ok (b, m') ->
  exists parsed, stands_for (mg_crits m) c parsed
    /\ (b, see m') = (if for_tuning c && negb (mg_tuning m) then (false, see m) else edit (sy_root y) parsed c (see m))
    /\ m' = with_doms m (mg_doms m').
Proof.
  intros y m c b m' Sy Nm R Ed H. destruct (reachable_ok y m Sy R) as [M [_ Hc]]. exists (parsed_of (mg_crits m) c). split; [apply parsed_stands; auto|].
  destruct (for_tuning c && negb (mg_tuning m)) eqn:T.
  - apply andb_true_iff in T. destruct T as [T1 T2]. apply negb_true_iff in T2.
    assert (E : step y m c = Ok (false, m)) by (destruct c; try discriminate Ed; try discriminate T1; cbn [step]; unfold tuned; rewrite T2; auto).
    rewrite E in H. injection H as <- <-. split; [auto|destruct m; auto].
  - destruct (edit_step y m c b m' Sy Nm M Hc Ed T H) as [s [-> E]]. rewrite E. split; [auto|destruct m; auto].
Qed.
Print Assumptions C69_edit.

(** The commands applied to the demonstration system: element moves, sequences, renames, refusals. *)
Definition cat_cmds : list cmd :=
  [CRenameDomain (lit "D1") (lit "E"); CRenameDomain (lit "E") (lit "D2"); CCreateConfig (lit "E") (lit "z"); CCreateConfig (lit "E") (lit "z"); CSplit (lit "E") (lit "/Sys/Sub/blk");
   CAddElement (lit "D2") (lit "/Sys/Aux/x"); CAddElement (lit "D2") (lit "/Sys/Aux"); CAddElement (lit "D2") (lit "/Sys/Aux/x"); CRemoveElement (lit "D2") (lit "/Sys/Nope");
   CDeleteDomain (lit "D1"); CCreateDomain (lit "new"); CSequenceAware (lit "new") true; CDeleteConfig (lit "E") (lit "z")].
Example C69_edit_nonvacuous : exists bs m', run demo demo_tuned cat_cmds = Ok (bs, m')
  /\ bs = [true; false; true; false; true; true; true; false; false; false; true; true; true]
  /\ map vd_elems (see demo_tuned) = [[[0; 0]]; [[0; 1]; [0; 2]]]
  /\ map (fun d => (string_of_list_ascii (vd_name d), vd_aware d, vd_elems d)) (see m')
     = [("E"%string, false, [[0; 0; 0]; [0; 0; 1]; [0; 0; 2]]); ("D2"%string, true, [[0; 1]; [0; 2]; [1]]); ("new"%string, true, [])].
Proof.
  let r := eval vm_compute in (run demo demo_tuned cat_cmds) in match r with Ok (?bs, ?m) => exists bs, m end.
  split; [vm_compute; reflexivity|]. split; [reflexivity|]. split; vm_compute; reflexivity.
Qed.

(** The other commands change no domain, element, configuration, order or rule. *)
Theorem C69_others : forall y m c b m', system_ok y -> reachable y m -> editing c = false -> step y m c = Ok (b, m') -> see m' = see m.
Proof. intros y m c b m' Sy R Ed H. destruct (reachable_ok y m Sy R) as [M _]. exact (other_step y m c b m' Sy M Ed H). Qed.
Print Assumptions C69_others.
(** What a command answers on the demonstration system, the calls to the hardware it makes, and the configurations last applied. *)
Definition told (m : mgr) (c : cmd) : option (bool * nat * list (option nat)) :=
  match step demo m c with
  | Ok (b, m') => Some (b, List.length (mg_trace m') - List.length (mg_trace m), map dm_last (ds_list (mg_doms m')))
  | _ => None
  end.
Example C69_others_nonvacuous : reachable demo demo_tuned /\ map dm_last (ds_list (mg_doms demo_tuned)) = [Some 1; None]
  /\ told demo_tuned (CRestore (lit "D1") (lit "Call")) = Some (true, 1, [Some 0; None])
  /\ told demo_tuned (CSetParameter (lit "/Sys/Sub/blk/a") (lit "7")) = Some (true, 1, [Some 1; None]).
Proof. split; [apply demo_tuned_reachable|]. split; [vm_compute; reflexivity|]. split; vm_compute; reflexivity. Qed.

Lemma same_tuning : forall m, with_tuning m (mg_tuning m) = m.
Proof. intros []. reflexivity. Qed.

(** Entering and leaving the tuning mode: an error when the mode is already the one asked for, or when it is not allowed. *)
Theorem C69_tuning : forall y m on need b m', step y m (CTuning on need) = Ok (b, m') ->
  (b = true <-> mg_tuning m = negb on /\ (on = true -> mg_allowed m = true))
  /\ mg_tuning m' = (if b then on else mg_tuning m)
  /\ (b = false -> m' = m) /\ (on = true -> m' = with_tuning m (mg_tuning m')).
Proof.
  intros y m on need b m' H. cbn [step] in H. unfold set_tuning in H. destruct on, (mg_tuning m) eqn:T; cbn [Bool.eqb negb andb] in H |- *.
  - injection H as <- <-. rewrite T. split; [split; [discriminate|intros [? _]; discriminate]|]. split; [auto|]. split; [auto|]. intros _. rewrite <- T. symmetry. apply same_tuning.
  - destruct (mg_allowed m) eqn:A; cbn [negb] in H; injection H as <- <-; cbn [mg_tuning with_tuning].
    + split; [tauto|]. split; [auto|]. split; [discriminate|auto].
    + rewrite T. split; [split; [discriminate|intros [_ X]; specialize (X eq_refl); discriminate]|]. split; [auto|]. split; [auto|]. intros _. rewrite <- T. symmetry. apply same_tuning.
  - destruct (do_apply y true need m) as [m1| | |] eqn:E; try discriminate. cbn [obind] in H. injection H as <- <-. cbn [mg_tuning with_tuning].
    split; [split; [split; [auto|discriminate]|auto]|]. split; [auto|]. split; [discriminate|discriminate].
  - injection H as <- <-. rewrite T. split; [split; [discriminate|intros [? _]; discriminate]|]. split; [auto|]. split; [auto|discriminate].
Qed.
Print Assumptions C69_tuning.
Example C69_tuning_nonvacuous : told demo_tuned (CTuning true []) = Some (false, 0, [Some 1; None]) /\ (exists n l, told demo_tuned (CTuning false []) = Some (true, n, l)) /\ told demo_state (CTuning true []) <> None.
Proof. split; [vm_compute; reflexivity|]. split; [|vm_compute; discriminate]. let r := eval vm_compute in (told demo_tuned (CTuning false [])) in match r with Some (?b, ?n, ?l) => exists n, l end. vm_compute. reflexivity. Qed.

(** The other switches always succeed (but for auto-sync, see C30) and change nothing else. *)
Theorem C69_switches : forall y m b m',
  (forall raw, step y m (CValueSpace raw) = Ok (b, m') -> b = true /\ m' = with_raw m raw)
  /\ (forall hex, step y m (COutputFormat hex) = Ok (b, m') -> b = true /\ m' = with_hex m hex)
  /\ (forall on, (on = true -> mg_autosync m = true) -> step y m (CAutoSync on) = Ok (b, m') -> b = true /\ m' = with_autosync m on)
  /\ (forall i v, step y m (CCriterion i v) = Ok (b, m') -> b = true /\ m' = with_crits m (mg_crits m'))
  /\ (forall need, step y m (CApply need) = Ok (b, m') -> b = true).
Proof.
  intros y m b m'. split; [|split; [|split; [|split]]].
  - intros raw H. inversion H; auto.
  - intros hex H. inversion H; auto.
  - intros on A H. cbn [step] in H. unfold set_autosync in H. destruct on; [rewrite A in H by auto|]; inversion H; auto.
  - intros i v H. inversion H; auto.
  - intros need H. cbn [step] in H. destruct (apply_configurations y need m); try discriminate. inversion H; auto.
Qed.
Print Assumptions C69_switches.
Example C69_switches_nonvacuous : mg_autosync demo_tuned = true /\ told demo_tuned (CAutoSync true) = Some (true, 0, [Some 1; None]) /\ told demo_tuned (CValueSpace true) = Some (true, 0, [Some 1; None]).
Proof. split; [reflexivity|]. split; vm_compute; reflexivity. Qed.

(** Restoring: an error without effect when the domain or the configuration does not exist; otherwise an error exactly when a
    synchronisation fails, and the configuration becomes the last applied one of its domain in both cases. *)
Theorem C69_restore : forall y m n k b m', system_ok y -> reachable y m -> mg_tuning m = true -> step y m (CRestore n k) = Ok (b, m') ->
  (b = false /\ m' = m /\ (pick (dom_called n) (see m) = None \/ exists l1 d l2, pick (dom_called n) (see m) = Some (l1, d, l2) /\ pick (conf_called k) (vd_confs d) = None))
  \/ exists l1 d l2 c1 c c2 evs, ds_list (mg_doms m) = l1 ++ d :: l2 /\ dm_configs d = c1 ++ c :: c2
      /\ pick (dom_called n) (see m) = Some (map see_dom l1, see_dom d, map see_dom l2) /\ pick (conf_called k) (map see_conf (dm_configs d)) = Some (map see_conf c1, see_conf c, map see_conf c2)
      /\ ds_list (mg_doms m') = l1 ++ with_last d (Some (cf_id c)) :: l2
      /\ mg_trace m' = mg_trace m ++ evs /\ (b = true <-> forall v, In v evs -> ev_ok v = true) /\ (mg_autosync m = false -> evs = []).
Proof.
  intros y m n k b m' Sy R T H. destruct (reachable_ok y m Sy R) as [[K [V L]] _]. cbn [step] in H. unfold tuned in H. rewrite T in H.
  destruct (ds_restore_spec y n k (mg_autosync m) (mg_doms m) (mg_main m) (mg_trace m) (proj1 Sy) K L) as [b1 [s1 [m1 [e1 [t1 [E [_ [_ [_ [A [B C]]]]]]]]]]].
  rewrite E in H. cbn [obind] in H. injection H as <- <-. unfold see. cbn [mg_doms mg_trace with_trace with_main with_doms].
  destruct (ds_find n (mg_doms m)) as [d|] eqn:F.
  - destruct (ds_find_split _ _ _ F) as [l1 [l2 [El [Hn Nn]]]]. rewrite El, pick_dom by auto.
    destruct (dm_find k d) as [c|] eqn:G.
    + right. destruct (dm_find_split _ _ _ G) as [c1 [c2 [Ec [Hk Nk]]]]. destruct (C d c eq_refl G) as [l1' [l2' [evs [El' [-> [-> [_ [-> [_ [Q _]]]]]]]]]].
      assert (X : l1' = l1 /\ l2' = l2).
      { rewrite El in El'. clear - El' K El. pose proof (ds_ids _ _ K) as N. rewrite El in N. clear K El. revert l1' El' N. induction l1 as [|z l1 IH]; intros [|z' l1'] El' N; simpl in El', N; inversion El'; subst; auto.
        - exfalso. inversion N as [|? ? X _]; subst. apply X. rewrite map_app. apply in_elt.
        - exfalso. inversion N as [|? ? X _]; subst. apply X. rewrite map_app. apply in_elt.
        - inversion N; subst. destruct (IH l1') as [-> ->]; auto. }
      destruct X as [-> ->]. exists l1, d, l2, c1, c, c2, evs. split; [auto|]. split; [auto|]. split; [auto|]. split; [rewrite Ec; apply pick_conf; auto|]. split; [auto|]. split; [auto|]. split; [apply forallb_forall|auto].
    + left. destruct (B d eq_refl G) as [-> [-> [-> [_ ->]]]]. split; [auto|]. split; [destruct m; auto|]. right. exists (map see_dom l1), (see_dom d), (map see_dom l2). split; [auto|]. apply pick_conf_none. apply dm_find_None. auto.
  - left. destruct (A eq_refl) as [-> [-> [-> [_ ->]]]]. split; [auto|]. split; [destruct m; auto|]. left. apply pick_dom_none. apply ds_find_None; auto.
Qed.
Print Assumptions C69_restore.
Example C69_restore_nonvacuous : told demo_tuned (CRestore (lit "D1") (lit "Call")) = Some (true, 1, [Some 0; None]) /\ told demo_tuned (CRestore (lit "D1") (lit "none")) = Some (false, 0, [Some 1; None]).
Proof. split; vm_compute; reflexivity. Qed.

Lemma skipn_twice : forall A (l : list A) i j, skipn j (skipn i l) = skipn (i + j) l.
Proof. intros A l i. revert l. induction i as [|i IH]; intros l j; simpl; auto. destruct l; auto. apply skipn_nil. Qed.

(** Bytes given through a handle: refused without effect unless they are exactly as many as the element has; otherwise the memory
    of the element is these bytes, and with auto-sync on the syncers of the element, above and below it, are all called with the new memory. *)
Theorem C69_bytes : forall y m p bytes b m', system_ok y -> reachable y m -> step y m (CHandleBytes p bytes) = Ok (b, m') ->
  ((forall e, elem_at (sy_root y) p = Some e -> List.length bytes <> footprint e) -> b = false /\ m' = m)
  /\ (forall e, elem_at (sy_root y) p = Some e -> List.length bytes = footprint e ->
       exists before old after, mg_main m = before ++ old ++ after /\ List.length before = offset (sy_root y) p /\ List.length old = List.length bytes
       /\ exists evs, m' = with_trace (with_main m (before ++ bytes ++ after)) (mg_trace m ++ evs)
       /\ Forall (fun v => ev_mem v = before ++ bytes ++ after) evs /\ (b = true <-> forall v, In v evs -> ev_ok v = true)
       /\ (mg_autosync m = false -> evs = [])
       /\ (mg_autosync m = true -> NoDup (map ev_syncer evs) /\ forall s, In s (map ev_syncer evs) <-> serves y s p)).
Proof.
  intros y m p bytes b m' Sy R H. destruct (reachable_ok y m Sy R) as [[_ [_ L]] _]. cbn [step] in H. unfold handle_bytes in H. split.
  - intros N. destruct (elem_at (sy_root y) p) as [e|] eqn:E; [|injection H as <- <-; auto]. rewrite (set_bytes_size _ _ e) in H by auto. injection H as <- <-. auto.
  - intros e E Ln. rewrite E in H. unfold set_bytes in H. rewrite E, Ln, Nat.eqb_refl, Nat.sub_0_r in H.
    destruct (layout_inside_parent (sy_root y) [] p (sy_root y) e) as [_ Le]; [apply (proj1 (proj1 Sy))|reflexivity|exact E|]. cbn [app] in Le. change (offset (sy_root y) []) with 0 in Le.
    unfold bb_write_bytes, bb_access_ok, bb_size in H. destruct (Nat.leb_spec (offset (sy_root y) p + List.length bytes) (List.length (mg_main m))) as [Hb|Hb]; [|lia].
    set (o := offset (sy_root y) p) in *. exists (firstn o (mg_main m)), (firstn (List.length bytes) (skipn o (mg_main m))), (skipn (List.length bytes) (skipn o (mg_main m))).
    split; [rewrite !firstn_skipn; auto|]. split; [apply firstn_length_le; lia|]. split; [apply firstn_length_le; rewrite skipn_length; lia|].
    assert (O : overwrite (mg_main m) o bytes = firstn o (mg_main m) ++ bytes ++ skipn (List.length bytes) (skipn o (mg_main m))).
    { unfold overwrite. rewrite skipn_twice. auto. }
    rewrite <- O. destruct (mg_autosync m) eqn:A.
    + destruct (sync_set y (syncer_set y p) (overwrite (mg_main m) o bytes) (mg_trace m)) as [[ok er] tr] eqn:Es. injection H as <- <-.
      destruct (sync_set_spec _ _ _ _ _ _ _ Es) as [evs [-> [E1 [E2 [E3 _]]]]]. exists evs. split; [auto|]. split; [auto|]. split; [rewrite E3; apply forallb_forall|]. split; [discriminate|]. intros _.
      rewrite E1. split; [apply sorted_nodup, syncer_set_sorted|]. intros s. apply serves_linked; [apply Sy|congruence].
    + injection H as <- <-. exists []. rewrite app_nil_r. split; [destruct m; auto|]. split; [auto|]. split; [split; [intros _ v []|auto]|]. split; [auto|discriminate].
Qed.
Print Assumptions C69_bytes.
Example C69_bytes_nonvacuous : told demo_tuned (CHandleBytes [0; 0; 0] [zero; zero]) = Some (true, 1, [Some 1; None]) /\ told demo_tuned (CHandleBytes [0; 0; 0] [zero]) = Some (false, 0, [Some 1; None])
  /\ told demo_tuned (CHandleBytes [9] []) = Some (false, 0, [Some 1; None]).
Proof. split; [vm_compute; reflexivity|]. split; vm_compute; reflexivity. Qed.

(** [wrote y q push m acc bb b m']: the value converted to the memory [bb], and accepted when [acc]; it is then pushed by the syncer above
    the parameter [q] when [push], and the answer is the one of the hardware; without such a syncer a push is an error. *)
Definition wrote (y : system) (q : list nat) (push : bool) (m : mgr) (acc : bool) (bb : blackboard) (b : bool) (m' : mgr) : Prop :=
  exists evs, m' = with_trace (with_main m bb) (mg_trace m ++ evs) /\
    (acc && push = false -> evs = [] /\ b = acc)
    /\ (acc && push = true ->
         (evs = [] /\ b = false /\ forall a s, above a q -> sy_own y a <> Some s)
         \/ exists a s, above a q /\ sy_own y a = Some s /\ evs = [Event s bb b]).

Lemma write_main_wrote : forall y q push o m b m', write_main y q push o m = Ok (b, m') -> exists acc bb, o = Ok (acc, bb) /\ wrote y q push m acc bb b m'.
Proof.
  intros y q push o m b m' H. unfold write_main in H. destruct o as [[acc bb]| | |]; try discriminate. cbn [obind fst snd] in H. exists acc, bb. split; [auto|]. unfold wrote.
  assert (Z : forall (k : bool * mgr), with_main m bb = with_trace (with_main m bb) (mg_trace m ++ [])) by (intros _; rewrite app_nil_r; destruct m; reflexivity).
  destruct acc; [|injection H as <- <-; exists []; split; [apply (Z (true, m))|]; split; [auto|discriminate]].
  unfold sync_param in H. destruct push; cbn [andb].
  - destruct (get_syncer y q) as [s|] eqn:G.
    + unfold sync_one in H. injection H as <- <-. exists [Event s bb (sy_hw y (mg_trace m) s)]. split; [auto|]. split; [discriminate|]. intros _. right.
      destruct (get_syncer_Some _ _ _ G) as [a [A O]]. exists a, s. auto.
    + injection H as <- <-. exists []. split; [rewrite app_nil_r; auto|]. split; [discriminate|]. intros _. left. split; [auto|]. split; [auto|]. intros a s A. rewrite (get_syncer_None _ _ G a A). discriminate.
  - injection H as <- <-. exists []. split; [rewrite app_nil_r; auto|]. split; [auto|discriminate].
Qed.

(** Setting a parameter by its path: an error without effect out of tuning mode or when there is no parameter on the path; otherwise
    the value is converted (C05 to C12), and pushed when auto-sync is on. *)
Theorem C69_set_parameter : forall y m path v b m', step y m (CSetParameter path v) = Ok (b, m') ->
  (mg_tuning m = false \/ param_of (sy_root y) path = None -> b = false /\ m' = m)
  /\ (forall q rest, mg_tuning m = true -> param_of (sy_root y) path = Some (q, rest) ->
       exists acc bb, access_set (sy_root y) (mg_fmt m) path v 0 (mg_main m) = Ok (acc, bb) /\ wrote y q (mg_autosync m) m acc bb b m').
Proof.
  intros y m path v b m' H. cbn [step] in H. unfold tuned in H. split.
  - intros N. destruct (mg_tuning m); [|injection H as <- <-; auto]. destruct N as [N|N]; [discriminate|]. unfold set_live in H. rewrite N in H. injection H as <- <-. auto.
  - intros q rest T P. rewrite T in H. unfold set_live in H. rewrite P in H. exact (write_main_wrote _ _ _ _ _ _ _ H).
Qed.
Print Assumptions C69_set_parameter.
Example C69_set_parameter_nonvacuous : told demo_tuned (CSetParameter (lit "/Sys/Sub/blk/a") (lit "7")) = Some (true, 1, [Some 1; None]) /\ told demo_tuned (CSetParameter (lit "/Sys/Sub/blk/a") (lit "x")) = Some (false, 0, [Some 1; None])
  /\ told demo_tuned (CSetParameter (lit "/Sys/Sub/blk") (lit "7")) = Some (false, 0, [Some 1; None]).
Proof. split; [vm_compute; reflexivity|]. split; vm_compute; reflexivity. Qed.

(** Setting a parameter through a handle: an error without effect unless the element is a parameter of no domain and the value has its
    shape; then in tuning mode nothing happens and the answer is a success; otherwise the value is converted, and pushed whatever auto-sync. *)
Theorem C69_handle_set : forall y m p v b m', step y m (CHandleSet p v) = Ok (b, m') ->
  (elem_at (sy_root y) p = None -> b = false /\ m' = m)
  /\ forall e, elem_at (sy_root y) p = Some e ->
      (check_set e p (hval_size v) (ds_att (mg_doms m)) = false -> b = false /\ m' = m)
      /\ (check_set e p (hval_size v) (ds_att (mg_doms m)) = true -> mg_tuning m = true -> b = true /\ m' = m)
      /\ (check_set e p (hval_size v) (ds_att (mg_doms m)) = true -> mg_tuning m = false ->
           exists acc bb, handle_write (e_kind e) v (offset (sy_root y) p) (mg_main m) = Ok (acc, bb) /\ wrote y p true m acc bb b m').
Proof.
  intros y m p v b m' H. cbn [step] in H. unfold handle_set in H. split.
  - intros E. rewrite E in H. injection H as <- <-. auto.
  - intros e E. rewrite E in H. split; [|split].
    + intros C. rewrite C in H. injection H as <- <-. auto.
    + intros C T. rewrite C, T in H. injection H as <- <-. auto.
    + intros C T. rewrite C, T in H. unfold handle_commit in H. rewrite E in H. exact (write_main_wrote _ _ _ _ _ _ _ H).
Qed.
Print Assumptions C69_handle_set.
Example C69_handle_set_nonvacuous : told demo_state (CHandleSet [1; 0] (HVal (UUInt 7))) = Some (true, 1, [Some 1; None]) /\ told demo_tuned (CHandleSet [1; 0] (HVal (UUInt 7))) = Some (true, 0, [Some 1; None])
  /\ told demo_state (CHandleSet [1; 0] (HVal (UUInt 4000))) = Some (false, 0, [Some 1; None]) /\ told demo_state (CHandleSet [0; 0; 0] (HVal (UUInt 7))) = Some (false, 0, [Some 1; None]).
Proof. split; [vm_compute; reflexivity|]. split; [vm_compute; reflexivity|]. split; vm_compute; reflexivity. Qed.
