(** C83: calls from several threads. *)
From Coq Require Import List Arith ZArith Bool Ascii String Lia.
From Verif Require Import Base BaseProofs BlackboardModel TreeModel ParamTypeModel SyncModel DomainModel DomainSpec MgrModel MgrSpec MgrProofs MgrSkel Demo ConfigProps
  ThreadModel ThreadSpec ThreadProofs.
Import ListNotations.
Local Open Scope nat_scope.

(** Threads make calls of the list of [kcall], each in the order of its program, in any interleaving.  If a thread that switches the tuning
    mode is the only one that heeds it, all calls return what they return when they are made one after the other in the order of
    their ends, and leave the memory, the domains and the log of the subsystems as these do.  The calls of a thread return in
    the order of the program.  A call that ends the process or is undefined under the lock is one that does so when made alone. *)
Theorem C83_serial : forall y m0 programs n es w, system_ok y -> reachable y m0 -> compatible programs -> texec y (begun m0 programs) n es w ->
  serially y m0 es (wo_mgr w)
  /\ (forall i t, nth_error (wo_threads w) i = Some t -> nth_error programs i = Some (map rt_call (of_thread i es) ++ th_calls t))
  /\ (forall i c r, nth_error (wo_threads w) i = Some (Thread (c :: r) Inside) -> locked y c (wo_mgr w) = alone y c (wo_mgr w)).
Proof.
  intros y m0 programs n es w Sy R Cp T. destruct (inv_exec y m0 programs n es w Sy Cp R T) as [Se Re St Lo Le He Or].
  split; [exact Se|]. split; [exact Or|]. intros i c r H. destruct (St i _ H) as [c' [r' [Q K]]]. cbn [th_calls] in Q. injection Q as <- <-. exact (locked_alone y _ c K).
Qed.
Print Assumptions C83_serial.

(** Whatever the threads call, at most one is under the lock; unless all calls have returned, some thread can go on, or the call
    under the lock ends the process or is undefined. *)
Theorem C83_progress : forall y m0 programs n es w, texec y (begun m0 programs) n es w ->
  (forall i j a b, nth_error (wo_threads w) i = Some a -> nth_error (wo_threads w) j = Some b -> th_phase a = Inside -> th_phase b = Inside -> i = j)
  /\ (~ finished w -> (exists e w', tstep y w e w')
       \/ exists i c r, nth_error (wo_threads w) i = Some (Thread (c :: r) Inside) /\ forall x, locked y c (wo_mgr w) <> Ok x).
Proof.
  intros y m0 programs n es w T. pose proof (mutex_exec y m0 programs n es w T) as M. split; [|exact (stuck y programs es w M)].
  intros i j a b Ha Hb Pa Pb. apply (u_lock _ _ _ M i a Ha) in Pa. apply (u_lock _ _ _ M j b Hb) in Pb. congruence.
Qed.
Print Assumptions C83_progress.

(** Whatever the threads call, there are at most four steps for each call: no call is tried again or waits for another in turn. *)
Theorem C83_bounded : forall y m0 programs n es w, texec y (begun m0 programs) n es w -> n <= 4 * list_sum (map (@List.length kcall) programs).
Proof. intros y m0 programs n es w T. pose proof (exec_left y m0 programs n es w T). lia. Qed.
Print Assumptions C83_bounded.

(** ** An execution, from the order in which the threads move *)

Definition tmove (y : system) (w : world) (i : nat) : option (list return_ * world) :=
  let 'World m l ts := w in
  match nth_error ts i with
  | Some (Thread (c :: r) (Looking n)) =>
      match unlocked y c n m with
      | LNext => Some ([], World m l (put i (Thread (c :: r) (Looking (S n))) ts))
      | LDone v => Some ([Return i c v], World m l (put i (Thread r (Looking 0)) ts))
      | LLock => Some ([], World m l (put i (Thread (c :: r) Waiting) ts))
      end
  | Some (Thread (c :: r) Waiting) => match l with None => Some ([], World m (Some i) (put i (Thread (c :: r) Inside) ts)) | Some _ => None end
  | Some (Thread (c :: r) Inside) =>
      match l with
      | Some k => if k =? i then match locked y c m with Ok (v, m') => Some ([Return i c v], World m' None (put i (Thread r (Looking 0)) ts)) | _ => None end else None
      | None => None
      end
  | _ => None
  end.

Lemma tmove_step : forall y w i e w', tmove y w i = Some (e, w') -> tstep y w e w'.
Proof.
  intros y [m l ts] i e w' H. unfold tmove in H. destruct (nth_error ts i) as [[[|c r] ph]|] eqn:Hi; try discriminate. destruct ph as [n| |].
  - destruct (unlocked y c n m) as [v| |] eqn:U; injection H as <- <-.
    + exact (t_done _ _ _ _ _ _ _ _ _ Hi U).
    + exact (t_next _ _ _ _ _ _ _ _ Hi U).
    + exact (t_wait _ _ _ _ _ _ _ _ Hi U).
  - destruct l; [discriminate|]. injection H as <- <-. exact (t_lock _ _ _ _ _ _ Hi).
  - destruct l as [k|]; [|discriminate]. destruct (Nat.eqb_spec k i) as [->|]; [|discriminate]. destruct (locked y c m) as [[v m']| | |] eqn:L; try discriminate. injection H as <- <-.
    exact (t_release _ _ _ _ _ _ _ _ Hi L).
Qed.

(** The moves, the last one first. *)
Fixpoint moves (y : system) (w : world) (back : list nat) : option (list return_ * world) :=
  match back with
  | [] => Some ([], w)
  | i :: b => match moves y w b with
              | Some (es, w') => match tmove y w' i with Some (e, w'') => Some (es ++ e, w'') | None => None end
              | None => None
              end
  end.
Lemma moves_exec : forall y w back es w', moves y w back = Some (es, w') -> texec y w (List.length back) es w'.
Proof.
  intros y w back. induction back as [|i b IH]; intros es w' H; cbn [moves List.length] in *; [injection H as <- <-; apply x_none|].
  destruct (moves y w b) as [[es1 w1]|]; [|discriminate]. destruct (tmove y w1 i) as [[e w2]|] eqn:E; [|discriminate]. injection H as <- <-.
  exact (x_step _ _ _ _ _ _ _ (IH es1 w1 eq_refl) (tmove_step _ _ _ _ _ E)).
Qed.

(** What calls return one after the other. *)
Fixpoint results (y : system) (m : mgr) (cs : list kcall) : option (list kres) :=
  match cs with
  | [] => Some []
  | c :: r => match alone y c m with Ok (v, m') => match results y m' r with Some vs => Some (v :: vs) | None => None end | _ => None end
  end.
Lemma serially_results : forall y m es m', serially y m es m' -> results y m (map rt_call es) = Some (map rt_res es).
Proof. intros y m es m' H. induction H as [m|m i c v m1 es m2 A H IH]; [reflexivity|]. cbn [map results rt_call rt_res]. rewrite A, IH. reflexivity. Qed.

(** The orders of the calls of two threads. *)
Lemma first_of : forall es l0 l1, of_thread 0 es = l0 -> of_thread 1 es = l1 -> (forall i, 2 <= i -> of_thread i es = []) ->
  (es = [] /\ l0 = [] /\ l1 = [])
  \/ exists e es1, es = e :: es1 /\ (forall i, 2 <= i -> of_thread i es1 = []) /\ ((l0 = e :: of_thread 0 es1 /\ l1 = of_thread 1 es1) \/ (l0 = of_thread 0 es1 /\ l1 = e :: of_thread 1 es1)).
Proof.
  intros [|e es] l0 l1 <- <- H; [left; auto|right]. exists e, es. split; [reflexivity|]. destruct e as [[|[|k]] c v].
  - split; [|left; auto]. intros i L. specialize (H i L). unfold of_thread in *. cbn [filter rt_thread] in H. destruct (Nat.eqb_spec 0 i); [lia|exact H].
  - split; [|right; auto]. intros i L. specialize (H i L). unfold of_thread in *. cbn [filter rt_thread] in H. destruct (Nat.eqb_spec 1 i); [lia|exact H].
  - exfalso. specialize (H (S (S k))). unfold of_thread in H. cbn [filter rt_thread] in H. rewrite Nat.eqb_refl in H. assert (L : 2 <= S (S k)) by lia. specialize (H L). discriminate H.
Qed.

Lemma orders : forall es a b c d, of_thread 0 es = [a] -> of_thread 1 es = [b; c; d] -> (forall i, 2 <= i -> of_thread i es = []) ->
  es = [a; b; c; d] \/ es = [b; a; c; d] \/ es = [b; c; a; d] \/ es = [b; c; d; a].
Proof.
  assert (Z : forall es, of_thread 0 es = [] -> of_thread 1 es = [] -> (forall i, 2 <= i -> of_thread i es = []) -> es = []).
  { intros es H0 H1 H. destruct (first_of es _ _ H0 H1 H) as [[E _]|[e [es1 [_ [_ [[Q _]|[_ Q]]]]]]]; [exact E|discriminate Q|discriminate Q]. }
  assert (O1 : forall es d, of_thread 0 es = [] -> of_thread 1 es = [d] -> (forall i, 2 <= i -> of_thread i es = []) -> es = [d]).
  { intros es d H0 H1 H. destruct (first_of es _ _ H0 H1 H) as [[_ [_ Q]]|[e [es1 [-> [R [[Q _]|[Q0 Q1]]]]]]]; [discriminate Q|discriminate Q|]. injection Q1 as -> Q1. rewrite (Z es1); auto. }
  assert (O2 : forall es c d, of_thread 0 es = [] -> of_thread 1 es = [c; d] -> (forall i, 2 <= i -> of_thread i es = []) -> es = [c; d]).
  { intros es c d H0 H1 H. destruct (first_of es _ _ H0 H1 H) as [[_ [_ Q]]|[e [es1 [-> [R [[Q _]|[Q0 Q1]]]]]]]; [discriminate Q|discriminate Q|]. injection Q1 as -> Q1. rewrite (O1 es1 d); auto. }
  assert (O3 : forall es b c d, of_thread 0 es = [] -> of_thread 1 es = [b; c; d] -> (forall i, 2 <= i -> of_thread i es = []) -> es = [b; c; d]).
  { intros es b c d H0 H1 H. destruct (first_of es _ _ H0 H1 H) as [[_ [_ Q]]|[e [es1 [-> [R [[Q _]|[Q0 Q1]]]]]]]; [discriminate Q|discriminate Q|]. injection Q1 as -> Q1. rewrite (O2 es1 c d); auto. }
  assert (A0 : forall es a, of_thread 0 es = [a] -> of_thread 1 es = [] -> (forall i, 2 <= i -> of_thread i es = []) -> es = [a]).
  { intros es a H0 H1 H. destruct (first_of es _ _ H0 H1 H) as [[_ [Q _]]|[e [es1 [-> [R [[Q0 Q1]|[_ Q]]]]]]]; [discriminate Q| |discriminate Q]. injection Q0 as -> Q0. rewrite (Z es1); auto. }
  assert (A1 : forall es a d, of_thread 0 es = [a] -> of_thread 1 es = [d] -> (forall i, 2 <= i -> of_thread i es = []) -> es = [a; d] \/ es = [d; a]).
  { intros es a d H0 H1 H. destruct (first_of es _ _ H0 H1 H) as [[_ [Q _]]|[e [es1 [-> [R [[Q0 Q1]|[Q0 Q1]]]]]]]; [discriminate Q| |].
    - injection Q0 as -> Q0. left. rewrite (O1 es1 d); auto.
    - injection Q1 as -> Q1. right. rewrite (A0 es1 a); auto. }
  assert (A2 : forall es a c d, of_thread 0 es = [a] -> of_thread 1 es = [c; d] -> (forall i, 2 <= i -> of_thread i es = []) -> es = [a; c; d] \/ es = [c; a; d] \/ es = [c; d; a]).
  { intros es a c d H0 H1 H. destruct (first_of es _ _ H0 H1 H) as [[_ [Q _]]|[e [es1 [-> [R [[Q0 Q1]|[Q0 Q1]]]]]]]; [discriminate Q| |].
    - injection Q0 as -> Q0. left. rewrite (O2 es1 c d); auto.
    - injection Q1 as -> Q1. right. destruct (A1 es1 a d) as [->| ->]; auto. }
  intros es a b c d H0 H1 H. destruct (first_of es _ _ H0 H1 H) as [[_ [Q _]]|[e [es1 [-> [R [[Q0 Q1]|[Q0 Q1]]]]]]]; [discriminate Q| |].
  - injection Q0 as -> Q0. left. rewrite (O3 es1 b c d); auto.
  - injection Q1 as -> Q1. right. destruct (A2 es1 a c d) as [->|[->| ->]]; auto.
Qed.

Lemma no_order : forall y m a b c d es, of_thread 0 es = [a] -> of_thread 1 es = [b; c; d] -> (forall i, 2 <= i -> of_thread i es = []) ->
  results y m (map rt_call [a; b; c; d]) <> Some (map rt_res [a; b; c; d]) -> results y m (map rt_call [b; a; c; d]) <> Some (map rt_res [b; a; c; d]) ->
  results y m (map rt_call [b; c; a; d]) <> Some (map rt_res [b; c; a; d]) -> results y m (map rt_call [b; c; d; a]) <> Some (map rt_res [b; c; d; a]) ->
  forall es' m', serially y m es' m' -> (forall i, of_thread i es' = of_thread i es) -> False.
Proof.
  intros y m a b c d es H0 H1 H N1 N2 N3 N4 es' m' S E. apply serially_results in S.
  destruct (orders es' a b c d) as [->|[->|[->| ->]]]; try contradiction; try (rewrite E; assumption). intros i L. rewrite E. exact (H i L).
Qed.

Definition finishedb (w : world) : bool := forallb (fun t => match th_calls t with [] => true | _ => false end) (wo_threads w).
Lemma finishedb_ok : forall w, finishedb w = true -> finished w.
Proof. intros w H t I. unfold finishedb in H. rewrite forallb_forall in H. specialize (H t I). destruct (th_calls t); [reflexivity|discriminate]. Qed.

Lemma moved : forall y w back es, option_map (fun x => (fst x, finishedb (snd x))) (moves y w back) = Some (es, true) -> exists w', texec y w (List.length back) es w' /\ finished w'.
Proof.
  intros y w back es H. destruct (moves y w back) as [[es1 w1]|] eqn:E; [|discriminate]. cbn [option_map fst snd] in H. injection H as -> F.
  exists w1. split; [exact (moves_exec _ _ _ _ _ E)|exact (finishedb_ok w1 F)].
Qed.

Definition kx_x : str := lit "/Sys/Aux/x".
Definition kx_programs : list (list kcall) := [[KSet [1; 0] (HVal (UUInt 7))]; [KTuning true []; KGetText kx_x; KGetText kx_x]].
Definition kx_back : list nat := rev [0; 0; 1; 1; 1; 1; 1; 1; 0; 0; 1; 1; 1].
Definition kx_events : list return_ :=
  [Return 1 (KTuning true []) (RBool true); Return 1 (KGetText kx_x) (RText (lit "0")); Return 0 (KSet [1; 0] (HVal (UUInt 7))) (RBool true); Return 1 (KGetText kx_x) (RText (lit "7"))].

(** Calls of several threads do not always return what they return in some order.  A handle's setter looks whether the tuning mode is on
    before it waits for the lock.  If the mode is switched on in between, its write comes after: a parameter that is read twice
    after the switch was accepted changes from one read to the next though nothing but the setter, without effect in the tuning
    mode, was called. *)
Theorem C83_race_refuted : exists y m0 programs n es w, system_ok y /\ reachable y m0 /\ texec y (begun m0 programs) n es w /\ finished w
  /\ (exists before after, of_thread 1 es = [Return 1 (KTuning true []) (RBool true); Return 1 (KGetText kx_x) (RText before); Return 1 (KGetText kx_x) (RText after)] /\ before <> after)
  /\ (exists p v, map rt_call (of_thread 0 es) = [KSet p v]) /\ List.length programs = 2
  /\ ~ exists es' m', serially y m0 es' m' /\ forall i, of_thread i es' = of_thread i es.
Proof.
  destruct (moved demo (begun demo_state kx_programs) kx_back kx_events) as [w [T F]]; [vm_compute; reflexivity|].
  exists demo, demo_state, kx_programs, (List.length kx_back), kx_events, w. split; [apply demo_ok|]. split; [exact demo_reachable|]. split; [exact T|]. split; [exact F|].
  split; [exists (lit "0"), (lit "7"); split; [reflexivity|discriminate]|]. split; [exists [1; 0], (HVal (UUInt 7)); reflexivity|]. split; [reflexivity|].
  intros [es' [m' [S O]]]. refine (no_order demo demo_state _ _ _ _ kx_events eq_refl eq_refl _ _ _ _ _ es' m' S O); try (vm_compute; intros Q; discriminate Q).
  intros [|[|i]] L; [lia|lia|reflexivity].
Qed.
Print Assumptions C83_race_refuted.

Definition kz_programs : list (list kcall) := [[KSetText kx_x (lit "9")]; [KTuning false []; KGetText kx_x; KGetText kx_x]].
Definition kz_back : list nat := rev [0; 1; 1; 1; 1; 1; 1; 0; 0; 1; 1; 1].
Definition kz_events : list return_ :=
  [Return 1 (KTuning false []) (RBool true); Return 1 (KGetText kx_x) (RText (lit "0")); Return 0 (KSetText kx_x (lit "9")) (RBool true); Return 1 (KGetText kx_x) (RText (lit "9"))].

(** The other way round: a command that sets a parameter looks whether the tuning mode is on before it waits for the lock.  If the mode is
    switched off in between, its write succeeds after the end of the tuning mode. *)
Theorem C83_late_refuted : exists y m0 programs n es w, system_ok y /\ reachable y m0 /\ texec y (begun m0 programs) n es w /\ finished w
  /\ (exists before after, of_thread 1 es = [Return 1 (KTuning false []) (RBool true); Return 1 (KGetText kx_x) (RText before); Return 1 (KGetText kx_x) (RText after)] /\ before <> after)
  /\ (exists v, of_thread 0 es = [Return 0 (KSetText kx_x v) (RBool true)]) /\ List.length programs = 2
  /\ ~ exists es' m', serially y m0 es' m' /\ forall i, of_thread i es' = of_thread i es.
Proof.
  destruct (moved demo (begun demo_tuned kz_programs) kz_back kz_events) as [w [T F]]; [vm_compute; reflexivity|].
  exists demo, demo_tuned, kz_programs, (List.length kz_back), kz_events, w. split; [apply demo_ok|]. split; [exact demo_tuned_reachable|]. split; [exact T|]. split; [exact F|].
  split; [exists (lit "0"), (lit "9"); split; [reflexivity|discriminate]|]. split; [exists (lit "9"); reflexivity|]. split; [reflexivity|].
  intros [es' [m' [S O]]]. refine (no_order demo demo_tuned _ _ _ _ kz_events eq_refl eq_refl _ _ _ _ _ es' m' S O); try (vm_compute; intros Q; discriminate Q).
  intros [|[|i]] L; [lia|lia|reflexivity].
Qed.
Print Assumptions C83_late_refuted.

(** One thread switches the tuning mode on, sets and switches it off; another reads and applies meanwhile; a third one only starts. *)
Definition ky_programs : list (list kcall) := [[KTuning true []; KSetText kx_x (lit "9"); KTuning false []]; [KGetText kx_x; KApply []; KGet [1; 0] (HKVal KUInt)]; [KGetText kx_x]].
Definition ky_back : list nat := rev [1; 0; 2; 0; 0; 1; 1; 1; 0; 0; 0; 1; 1; 0; 1; 0; 0; 1; 1; 2; 2].
Definition ky_events : list return_ :=
  [Return 0 (KTuning true []) (RBool true); Return 1 (KGetText kx_x) (RText (lit "0")); Return 0 (KSetText kx_x (lit "9")) (RBool true); Return 1 (KApply []) (RBool true);
   Return 0 (KTuning false []) (RBool true); Return 1 (KGet [1; 0] (HKVal KUInt)) (RVal (HVal (UUInt 9))); Return 2 (KGetText kx_x) (RText (lit "9"))].
Example C83_nonvacuous : system_ok demo /\ reachable demo demo_state /\ compatible ky_programs
  /\ exists w, texec demo (begun demo_state ky_programs) 21 ky_events w /\ finished w.
Proof.
  split; [apply demo_ok|]. split; [exact demo_reachable|]. split.
  - intros i j a b c d Ha Hb Ic Id S H.
    destruct i as [|[|[|i]]]; cbn in Ha; [| | |destruct i; discriminate Ha]; injection Ha as <-; cbn in Ic;
      repeat (destruct Ic as [<-|Ic]; try (destruct S; fail)); try (destruct Ic; fail);
      (destruct j as [|[|[|j]]]; cbn in Hb; [reflexivity| | |destruct j; discriminate Hb]; injection Hb as <-; cbn in Id; repeat (destruct Id as [<-|Id]; try (destruct H; fail)); destruct Id).
  - apply (moved demo (begun demo_state ky_programs) ky_back). vm_compute. reflexivity.
Qed.
(** The same in another order of the threads: the application comes first. *)
Example C83_other_order : exists es w, texec demo (begun demo_state ky_programs) 21 es w /\ finished w /\ map rt_thread es = [1; 1; 1; 2; 0; 0; 0].
Proof.
  destruct (moved demo (begun demo_state ky_programs) (rev [1; 1; 1; 1; 1; 1; 1; 1; 1; 2; 2; 2; 0; 0; 0; 0; 0; 0; 0; 0; 0])
    [Return 1 (KGetText kx_x) (RText (lit "0")); Return 1 (KApply []) (RBool true); Return 1 (KGet [1; 0] (HKVal KUInt)) (RVal (HVal (UUInt 0))); Return 2 (KGetText kx_x) (RText (lit "0"));
     Return 0 (KTuning true []) (RBool true); Return 0 (KSetText kx_x (lit "9")) (RBool true); Return 0 (KTuning false []) (RBool true)]) as [w [T F]]; [vm_compute; reflexivity|].
  eexists _, w. split; [exact T|]. split; [exact F|reflexivity].
Qed.
