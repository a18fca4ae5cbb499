(** Model of an application of configurations while another thread changes the criteria.  The state of a criterion is changed
    without any lock (SelectionCriterion.cpp:63-86 setCriterionState), and looked at by the rules during the application
    (ParameterMgr.cpp:680-695 applyConfigurations, 2112-2140 setTuningMode).  A moment is a number: the t-th look at a criterion since
    the beginning of the application; the criteria are, at each moment, in any state.  A look reads one integer at once
    (SelectionCriterion.cpp:107-130): torn integers are not modelled. *)
From Coq Require Import List Arith ZArith Bool.
From Verif Require Import Base CriterionModel RuleModel BlackboardModel TreeModel SyncModel DomainModel MgrModel.
Import ListNotations.
Local Open Scope nat_scope.

(** The criteria at each look. *)
Definition moments := nat -> list criterion.

(** CompoundRule.cpp:111-126 and SelectionCriterionRule.cpp:123-140 matches: the result and the next moment.  One look for each
    test; the tests after the one that decides are not made. *)
Fixpoint rule_looks (st : moments) (r : rule) (t : nat) : bool * nat :=
  match r with
  | RCrit c w v => (crit_matches (st t) c w v, S t)
  | RComp all children =>
      (fix loop (l : list rule) (t : nat) : bool * nat :=
         match l with
         | [] => (all, t)
         | k :: l' => let '(b, t1) := rule_looks st k t in if xorb b all then (negb all, t1) else loop l' t1
         end) children t
  end.

(** DomainConfiguration.cpp:408-413 isApplicable. *)
Definition config_looks (st : moments) (c : config) (t : nat) : bool * nat :=
  match cf_rule c with Some r => rule_looks st r t | None => (false, t) end.

(** ConfigurableDomain.cpp:1001-1016 findApplicableDomainConfiguration. *)
Fixpoint pick_looks (st : moments) (l : list config) (t : nat) : option config * nat :=
  match l with
  | [] => (None, t)
  | c :: r => let '(b, t1) := config_looks st c t in if b then (Some c, t1) else pick_looks st r t1
  end.

(** ConfigurableDomain.cpp:542-585 apply. *)
Definition dm_apply_during (y : system) (st : moments) (force : bool) (d : domain) (shared : option (list nat))
  (main : blackboard) (tr : list event) (t : nat) : outcome (domain * option (list nat) * blackboard * list event * nat) :=
  let is_null := match shared with None => true | Some _ => false end in
  if xorb is_null (dm_aware d) then Ok (d, shared, main, tr, t)
  else
    let d1 := if force then with_last d None else d in
    let '(pick, t1) := pick_looks st (dm_configs d1) t in
    match pick with
    | None => Ok (d1, shared, main, tr, t1)
    | Some c =>
        if is_last d1 c then Ok (d1, shared, main, tr, t1)
        else
          do x <- cf_restore y (is_null && dm_aware d1) c main tr;
          let '(_, main', _, tr') := x in
          let shared' := match shared with
                         | Some ss => if dm_aware d1 then shared else Some (set_union ss (dm_syncers d1))
                         | None => None
                         end in
          Ok (with_last d1 (Some (cf_id c)), shared', main', tr', t1)
    end.

(** ConfigurableDomains.cpp:65-102 apply: one of the two loops. *)
Fixpoint pass_during (y : system) (st : moments) (force : bool) (l : list domain) (shared : option (list nat))
  (main : blackboard) (tr : list event) (t : nat) : outcome (list domain * option (list nat) * blackboard * list event * nat) :=
  match l with
  | [] => Ok ([], shared, main, tr, t)
  | d :: r =>
      do x <- dm_apply_during y st force d shared main tr t;
      let '(d1, shared1, main1, tr1, t1) := x in
      do z <- pass_during y st force r shared1 main1 tr1 t1;
      let '(r1, shared2, main2, tr2, t2) := z in
      Ok (d1 :: r1, shared2, main2, tr2, t2)
  end.

(** ConfigurableDomains.cpp:65-102 apply. *)
Definition ds_apply_during (y : system) (st : moments) (force : bool) (ss : list nat) (s : domains) (main : blackboard)
  (tr : list event) : outcome (domains * blackboard * list event * nat) :=
  do x <- pass_during y st force (ds_list s) (Some ss) main tr 0;
  let '(l1, collected, main1, tr1, t1) := x in
  let '(_, _, tr2) := sync_set y (match collected with Some c => c | None => [] end) main1 tr1 in
  do z <- pass_during y st force l1 None main1 tr2 t1;
  let '(l2, _, main2, tr3, t2) := z in
  Ok (Domains l2 (ds_att s) (ds_fresh s), main2, tr3, t2).

(** ParameterMgr.cpp:2928-2945 doApplyConfigurations: the state reached and the number of looks.  The criteria are then those of this
    moment, their counters of changes reset. *)
Definition do_apply_during (y : system) (st : moments) (force : bool) (need : list nat) (m : mgr) : outcome (mgr * nat) :=
  do x <- ds_apply_during y st force (resync_syncers y need) (mg_doms m) (mg_main m) (mg_trace m);
  let '(s, bb, tr, t) := x in
  Ok (with_crits (with_trace (with_main (with_doms m s) bb) tr) (crits_reset (st t)), t).

(** ParameterMgr.cpp:680-695 applyConfigurations. *)
Definition apply_during (y : system) (st : moments) (need : list nat) (m : mgr) : outcome (mgr * nat) :=
  if mg_tuning m then Ok (m, 0) else do_apply_during y st false need m.

(** ParameterMgr.cpp:2112-2140 setTuningMode, to leave the tuning mode. *)
Definition leave_during (y : system) (st : moments) (need : list nat) (m : mgr) : outcome (mgr * nat) :=
  if mg_tuning m then do x <- do_apply_during y st true need m; Ok (with_tuning (fst x) false, snd x) else Ok (m, 0).
