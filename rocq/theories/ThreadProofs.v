(** Lemmas about several threads. *)
From Coq Require Import List Arith ZArith Bool Ascii Lia.
From Verif Require Import Base BaseProofs BlackboardModel TreeModel SyncModel DomainModel DomainSpec MgrModel MgrSpec MgrProofs MgrSkel ThreadModel ThreadSpec.
Import ListNotations.
Local Open Scope nat_scope.

Lemma put_same : forall A (l : list A) i x a, nth_error l i = Some a -> nth_error (put i x l) i = Some x.
Proof. induction l as [|b l IH]; intros [|i] x a H; try discriminate; cbn [put nth_error] in *; [reflexivity|]. exact (IH i x a H). Qed.

Lemma put_other : forall A (l : list A) i j x, i <> j -> nth_error (put i x l) j = nth_error l j.
Proof. induction l as [|b l IH]; intros [|i] [|j] x N; cbn [put nth_error]; auto; try congruence. Qed.

Lemma put_length : forall A (l : list A) i x, List.length (put i x l) = List.length l.
Proof. induction l as [|b l IH]; intros [|i] x; cbn [put List.length]; auto. Qed.

(** Where a thread is, and what it saw that still holds. *)
Definition set_checked (y : system) (m : mgr) (p : pos) (v : hval) : Prop :=
  exists e, elem_at (sy_root y) p = Some e /\ check_set e p (hval_size v) (ds_att (mg_doms m)) = true.
Definition may_lock (y : system) (m : mgr) (c : kcall) : Prop :=
  match c with
  | KSet p v => set_checked y m p v /\ mg_tuning m = false
  | KGet p h => exists e, elem_at (sy_root y) p = Some e /\ check_get (e_kind e) (hkind_array h) = true
  | KSetText _ _ => mg_tuning m = true
  | KTuning on _ => Bool.eqb on (mg_tuning m) = false /\ on && negb (mg_allowed m) = false
  | KApply _ | KGetText _ => True
  end.
Definition still (y : system) (m : mgr) (t : thread) : Prop :=
  match th_phase t with
  | Looking 0 => True
  | Looking 1 => exists p v r, th_calls t = KSet p v :: r /\ set_checked y m p v
  | Looking _ => False
  | Waiting | Inside => exists c r, th_calls t = c :: r /\ may_lock y m c
  end.

(** Under the lock, a call does what it does alone. *)
Lemma locked_alone : forall y m c, may_lock y m c -> locked y c m = alone y c m.
Proof.
  intros y m c H. destruct c as [need|p h|p v|path|path v|on need]; cbn [locked alone command_of step may_lock] in *.
  - destruct (apply_configurations y need m); reflexivity.
  - destruct H as [e [E C]]. unfold handle_get. rewrite E, C. destruct (handle_read (e_kind e) h (offset (sy_root y) p) (mg_main m)); reflexivity.
  - destruct H as [[e [E C]] T]. unfold handle_set. rewrite E, C, T. reflexivity.
  - destruct (get_parameter y path m); reflexivity.
  - unfold tuned. rewrite H. reflexivity.
  - destruct H as [T A]. unfold set_tuning. rewrite T, A. destruct on; [reflexivity|]. destruct (do_apply y true need m); reflexivity.
Qed.

(** Without the lock too. *)
Lemma done_alone : forall y m c n v t r, still y m t -> th_calls t = c :: r -> th_phase t = Looking n -> unlocked y c n m = LDone v -> alone y c m = Ok (v, m).
Proof.
  intros y m c n v t r S Ec Ep H. unfold still in S. rewrite Ep, Ec in S.
  assert (N : n = 0 \/ (n = 1 /\ exists p w, c = KSet p w /\ set_checked y m p w)).
  { destruct n as [|[|n]]; [left; reflexivity|right|destruct S]. split; [reflexivity|]. destruct S as [p [w [r' [Q K]]]]. injection Q as Q _. exists p, w. auto. }
  destruct N as [->|[-> [p [w [-> [e [E C]]]]]]].
  - destruct c as [need|p h|p w|path|path w|on need]; cbn [unlocked alone command_of step] in *; try discriminate H.
    + unfold handle_get. destruct (elem_at (sy_root y) p) as [e|]; [destruct (check_get (e_kind e) (hkind_array h)); [discriminate|]|]; injection H as <-; reflexivity.
    + unfold handle_set. destruct (elem_at (sy_root y) p) as [e|]; [destruct (check_set e p (hval_size w) (ds_att (mg_doms m))); [discriminate|]|]; injection H as <-; reflexivity.
    + unfold tuned. destruct (mg_tuning m); [discriminate|]. injection H as <-. reflexivity.
    + unfold set_tuning. destruct (Bool.eqb on (mg_tuning m)); [injection H as <-; reflexivity|]. destruct (on && negb (mg_allowed m)); [injection H as <-; reflexivity|discriminate].
  - cbn [unlocked alone command_of step] in *. unfold handle_set. rewrite E, C. destruct (mg_tuning m); [|discriminate]. injection H as <-. reflexivity.
Qed.

Lemma wait_may : forall y m c n t r, still y m t -> th_calls t = c :: r -> th_phase t = Looking n -> unlocked y c n m = LLock -> may_lock y m c.
Proof.
  intros y m c n t r S Ec Ep H. unfold still in S. rewrite Ep, Ec in S. destruct n as [|[|n]]; [| |destruct S].
  - destruct c as [need|p h|p w|path|path w|on need]; cbn [unlocked may_lock] in *; try discriminate H; auto.
    + destruct (elem_at (sy_root y) p) as [e|]; [|discriminate]. exists e. split; [reflexivity|]. destruct (check_get (e_kind e) (hkind_array h)); [reflexivity|discriminate].
    + destruct (elem_at (sy_root y) p) as [e|]; [destruct (check_set e p (hval_size w) (ds_att (mg_doms m)))|]; discriminate.
    + destruct (mg_tuning m); [reflexivity|discriminate].
    + destruct (Bool.eqb on (mg_tuning m)); [discriminate|]. destruct (on && negb (mg_allowed m)); [discriminate|auto].
  - destruct S as [p [w [r' [Q K]]]]. injection Q as -> _. cbn [unlocked may_lock] in *. split; [exact K|]. destruct (mg_tuning m); [discriminate|reflexivity].
Qed.

Lemma next_checked : forall y m c n t r, still y m t -> th_calls t = c :: r -> th_phase t = Looking n -> unlocked y c n m = LNext -> n = 0 /\ exists p v, c = KSet p v /\ set_checked y m p v.
Proof.
  intros y m c n t r S Ec Ep H. unfold still in S. rewrite Ep, Ec in S. destruct n as [|[|n]]; [| |destruct S].
  - split; [reflexivity|]. destruct c as [need|p h|p w|path|path w|on need]; cbn [unlocked] in *; try discriminate H.
    + destruct (elem_at (sy_root y) p) as [e|]; [destruct (check_get (e_kind e) (hkind_array h))|]; discriminate.
    + exists p, w. split; [reflexivity|]. destruct (elem_at (sy_root y) p) as [e|] eqn:E; [|discriminate]. exists e. split; [exact E|]. destruct (check_set e p (hval_size w) (ds_att (mg_doms m))); [reflexivity|discriminate].
    + destruct (mg_tuning m); discriminate.
    + destruct (Bool.eqb on (mg_tuning m)); [discriminate|]. destruct (on && negb (mg_allowed m)); discriminate.
  - destruct S as [p [w [r' [Q K]]]]. injection Q as -> _. cbn [unlocked] in H. destruct (mg_tuning m); discriminate.
Qed.

(** What a call leaves as it was. *)
Lemma do_apply_allowed : forall y force need m m', do_apply y force need m = Ok m' -> mg_allowed m' = mg_allowed m.
Proof.
  intros y force need m m' H. unfold do_apply in H. destruct (ds_apply _ _ _ _ _ _ _) as [[[s bb] tr]| | |]; try discriminate. cbn [obind] in H. injection H as <-. reflexivity.
Qed.
Lemma write_main_allowed : forall y p a o m b m', write_main y p a o m = Ok (b, m') -> mg_allowed m' = mg_allowed m.
Proof.
  intros y p a o m b m' H. unfold write_main in H. destruct o as [[k bb]| | |]; try discriminate. cbn [obind fst snd] in H. destruct k; [destruct (sync_param _ _ _ _ _)|]; injection H as _ <-; reflexivity.
Qed.

Lemma locked_keeps : forall y m c v m', system_ok y -> reachable y m -> locked y c m = Ok (v, m') ->
  ds_att (mg_doms m') = ds_att (mg_doms m) /\ mg_allowed m' = mg_allowed m /\ (~ switches c -> mg_tuning m' = mg_tuning m).
Proof.
  intros y m c v m' Sy R H. destruct (reachable_ok y m Sy R) as [K _].
  assert (A : forall force need k, do_apply y force need m = Ok k -> ds_att (mg_doms k) = ds_att (mg_doms m) /\ mg_allowed k = mg_allowed m /\ mg_tuning k = mg_tuning m).
  { intros force need k Q. destruct (do_apply_inv y force need m k (proj1 Sy) K Q) as [D [_ [T _]]]. rewrite D. split; [reflexivity|]. split; [exact (do_apply_allowed _ _ _ _ _ Q)|exact T]. }
  assert (W : forall p a o b k, write_main y p a o m = Ok (b, k) -> ds_att (mg_doms k) = ds_att (mg_doms m) /\ mg_allowed k = mg_allowed m /\ mg_tuning k = mg_tuning m).
  { intros p a o b k Q. destruct (write_main_inv _ _ _ _ _ _ _ Q) as [D [_ [T _]]]. rewrite D. split; [reflexivity|]. split; [exact (write_main_allowed _ _ _ _ _ _ _ Q)|exact T]. }
  destruct c as [need|p h|p w|path|path w|on need]; cbn [locked] in H.
  - unfold apply_configurations in H. destruct (mg_tuning m) eqn:T; cbn [obind] in H; [injection H as _ <-; auto|].
    destruct (do_apply y false need m) as [k| | |] eqn:Q; try discriminate. cbn [obind] in H. injection H as _ <-. destruct (A _ _ _ Q) as [A1 [A2 A3]]. split; [exact A1|split; [exact A2|intros _; congruence]].
  - assert (m' = m) as ->; [|auto]. destruct (elem_at (sy_root y) p) as [e|]; [|injection H as _ <-; reflexivity]. destruct (handle_read _ _ _ _); try discriminate; cbn in H; injection H as _ <-; reflexivity.
  - unfold handle_commit in H. destruct (elem_at (sy_root y) p) as [e|]; [|cbn in H; injection H as _ <-; auto].
    destruct (write_main _ _ _ _ _) as [[b k]| | |] eqn:Q; try discriminate. cbn in H. injection H as _ <-. destruct (W _ _ _ _ _ Q) as [A1 [A2 A3]]. auto.
  - assert (m' = m) as ->; [|auto]. destruct (get_parameter y path m); try discriminate; cbn in H; injection H as _ <-; reflexivity.
  - unfold set_live in H. destruct (param_of (sy_root y) path) as [[p e]|]; [|cbn in H; injection H as _ <-; auto].
    destruct (write_main _ _ _ _ _) as [[b k]| | |] eqn:Q; try discriminate. cbn in H. injection H as _ <-. destruct (W _ _ _ _ _ Q) as [A1 [A2 A3]]. auto.
  - destruct on; [injection H as _ <-; cbn; split; [reflexivity|]; split; [reflexivity|intros N; destruct N; exact I]|].
    destruct (do_apply y true need m) as [k| | |] eqn:Q; try discriminate. cbn in H. injection H as _ <-. destruct (A _ _ _ Q) as [A1 [A2 A3]]. cbn. split; [exact A1|]. split; [exact A2|]. intros N. destruct N. exact I.
Qed.

Lemma still_keeps : forall y m m' t, ds_att (mg_doms m') = ds_att (mg_doms m) -> mg_allowed m' = mg_allowed m ->
  (mg_tuning m' = mg_tuning m \/ forall c r, th_calls t = c :: r -> ~ heeds c) -> still y m t -> still y m' t.
Proof.
  intros y m m' t E1 E2 E3 S. unfold still in *.
  assert (C : forall p v, set_checked y m p v -> set_checked y m' p v) by (intros p v [e K]; exists e; rewrite E1; exact K).
  assert (L : forall c r, th_calls t = c :: r -> may_lock y m c -> may_lock y m' c).
  { intros c r Ec K. destruct E3 as [E3|E3].
    - destruct c; cbn [may_lock] in *; rewrite ?E2, ?E3; auto. destruct K as [K1 K2]. auto.
    - specialize (E3 c r Ec). destruct c; cbn [may_lock heeds] in *; auto; destruct E3; exact I. }
  destruct (th_phase t) as [[|[|n]]| |]; auto.
  - destruct S as [p [v [r [Q K]]]]. exists p, v, r. auto.
  - destruct S as [c [r [Q K]]]. exists c, r. eauto.
  - destruct S as [c [r [Q K]]]. exists c, r. eauto.
Qed.

Lemma alone_reachable : forall y m c v m', reachable y m -> alone y c m = Ok (v, m') -> reachable y m'.
Proof.
  assert (G : forall A (f : A -> kres) m o v m', got f m o = Ok (v, m') -> m' = m) by (intros A f m o v m' H; destruct o; try discriminate; injection H as _ <-; reflexivity).
  assert (S : forall y m k v m', reachable y m -> (do x <- step y m k; Ok (RBool (fst x), snd x)) = Ok (v, m') -> reachable y m').
  { intros y m k v m' R H. destruct (step y m k) as [[b m1]| | |] eqn:E; try discriminate. cbn in H. injection H as _ <-. exact (reachable_step _ _ _ _ _ R E). }
  intros y m c v m' R H. destruct c; cbn [alone command_of] in H; try (exact (S _ _ _ _ _ R H)); apply G in H; subst m'; exact R.
Qed.

Lemma serially_snoc : forall y m es m1 i c v m2, serially y m es m1 -> alone y c m1 = Ok (v, m2) -> serially y m (es ++ [Return i c v]) m2.
Proof.
  intros y m es m1 i c v m2 H A. induction H as [m|m j d u m1 es m3 A1 H IH]; cbn [app]; [apply (se_call y m i c v m2 []); [exact A|apply se_none]|].
  apply (se_call y m j d u m1); auto.
Qed.

Lemma of_thread_app : forall i a b, of_thread i (a ++ b) = of_thread i a ++ of_thread i b.
Proof. intros i a b. unfold of_thread. apply filter_app. Qed.

(** ** The invariant *)

Record inv (y : system) (m0 : mgr) (programs : list (list kcall)) (es : list return_) (w : world) : Prop := Inv {
  i_serial : serially y m0 es (wo_mgr w);
  i_reachable : reachable y (wo_mgr w);
  i_still : forall i t, nth_error (wo_threads w) i = Some t -> still y (wo_mgr w) t;
  i_lock : forall i t, nth_error (wo_threads w) i = Some t -> (th_phase t = Inside <-> wo_lock w = Some i);
  i_length : List.length (wo_threads w) = List.length programs;
  i_held : forall i, wo_lock w = Some i -> i < List.length programs;
  i_order : forall i t, nth_error (wo_threads w) i = Some t -> nth_error programs i = Some (map rt_call (of_thread i es) ++ th_calls t)
}.

Lemma inv_begun : forall y m programs, reachable y m -> inv y m programs [] (begun m programs).
Proof.
  intros y m programs R.
  assert (N : forall i t, nth_error (wo_threads (begun m programs)) i = Some t -> exists p, nth_error programs i = Some p /\ t = Thread p (Looking 0)).
  { intros i t H. cbn [begun wo_threads] in H. rewrite nth_error_map in H. destruct (nth_error programs i) as [p|]; [|discriminate]. cbn in H. injection H as <-. exists p. auto. }
  constructor; cbn [begun wo_mgr wo_lock].
  - apply se_none.
  - exact R.
  - intros i t H. destruct (N i t H) as [p [_ ->]]. exact I.
  - intros i t H. destruct (N i t H) as [p [_ ->]]. split; discriminate.
  - cbn [wo_threads]. apply map_length.
  - discriminate.
  - intros i t H. destruct (N i t H) as [p [E ->]]. exact E.
Qed.

Lemma own_events : forall i j c v es, of_thread j (es ++ [Return i c v]) = if i =? j then of_thread j es ++ [Return i c v] else of_thread j es.
Proof. intros i j c v es. rewrite of_thread_app. cbn [of_thread filter rt_thread]. destruct (i =? j); [reflexivity|apply app_nil_r]. Qed.

Lemma inv_step : forall y m0 programs es w e w', system_ok y -> compatible programs -> inv y m0 programs es w -> tstep y w e w' -> inv y m0 programs (es ++ e) w'.
Proof.
  intros y m0 programs es w e w' Sy Cp [Se Re St Lo Le He Or] T.
  destruct T as [m l ts i c r n Hi Hu|m l ts i c r n v Hi Hu|m l ts i c r n Hi Hu|m ts i c r Hi|m ts i c r v m' Hi Hl]; cbn [wo_mgr wo_lock wo_threads] in *.
  - (* next *)
    destruct (next_checked y m c n _ r (St i _ Hi) eq_refl eq_refl Hu) as [-> [p [v [-> K]]]]. rewrite app_nil_r. constructor; cbn [wo_mgr wo_lock wo_threads]; auto; [| |rewrite put_length; exact Le|].
    + intros j t H. destruct (Nat.eq_dec i j) as [<-|N]; [rewrite (put_same _ _ _ _ _ Hi) in H; injection H as <-; exists p, v, r; auto|rewrite put_other in H by exact N; exact (St j t H)].
    + intros j t H. destruct (Nat.eq_dec i j) as [<-|N]; [rewrite (put_same _ _ _ _ _ Hi) in H; injection H as <-; pose proof (Lo i _ Hi) as [L1 L2]; cbn [th_phase] in *; split; [discriminate|intros Q; specialize (L2 Q); discriminate L2]|rewrite put_other in H by exact N; exact (Lo j t H)].
    + intros j t H. destruct (Nat.eq_dec i j) as [<-|N]; [rewrite (put_same _ _ _ _ _ Hi) in H; injection H as <-; exact (Or i _ Hi)|rewrite put_other in H by exact N; exact (Or j t H)].
  - (* done *)
    pose proof (done_alone y m c n v _ r (St i _ Hi) eq_refl eq_refl Hu) as A. constructor; cbn [wo_mgr wo_lock wo_threads]; auto; [|intros j t H|intros j t H|rewrite put_length; exact Le|intros j t H].
    + exact (serially_snoc _ _ _ _ _ _ _ _ Se A).
    + destruct (Nat.eq_dec i j) as [<-|N]; [rewrite (put_same _ _ _ _ _ Hi) in H; injection H as <-; exact I|rewrite put_other in H by exact N; exact (St j t H)].
    + destruct (Nat.eq_dec i j) as [<-|N]; [rewrite (put_same _ _ _ _ _ Hi) in H; injection H as <-|rewrite put_other in H by exact N; exact (Lo j t H)].
      pose proof (Lo i _ Hi) as [L1 L2]. cbn [th_phase] in *. split; [discriminate|]. intros Q. specialize (L2 Q). discriminate L2.
    + rewrite own_events. destruct (Nat.eqb_spec i j) as [<-|N]; [rewrite (put_same _ _ _ _ _ Hi) in H; injection H as <-|rewrite put_other in H by exact N; exact (Or j t H)].
      pose proof (Or i _ Hi) as O. cbn [th_calls] in *. rewrite map_app, <- app_assoc. exact O.
  - (* wait *)
    pose proof (wait_may y m c n _ r (St i _ Hi) eq_refl eq_refl Hu) as K. rewrite app_nil_r. constructor; cbn [wo_mgr wo_lock wo_threads]; auto; [intros j t H|intros j t H|rewrite put_length; exact Le|intros j t H];
      (destruct (Nat.eq_dec i j) as [<-|N]; [rewrite (put_same _ _ _ _ _ Hi) in H; injection H as <-|rewrite put_other in H by exact N]).
    + exists c, r. auto.
    + exact (St j t H).
    + pose proof (Lo i _ Hi) as [L1 L2]. cbn [th_phase] in *. split; [discriminate|]. intros Q. specialize (L2 Q). discriminate L2.
    + exact (Lo j t H).
    + exact (Or i _ Hi).
    + exact (Or j t H).
  - (* lock *)
    rewrite app_nil_r. constructor; cbn [wo_mgr wo_lock wo_threads]; auto; [intros j t H|intros j t H|rewrite put_length; exact Le| |intros j t H].
    + destruct (Nat.eq_dec i j) as [<-|N]; [rewrite (put_same _ _ _ _ _ Hi) in H; injection H as <-; exact (St i _ Hi)|rewrite put_other in H by exact N; exact (St j t H)].
    + destruct (Nat.eq_dec i j) as [<-|N]; [rewrite (put_same _ _ _ _ _ Hi) in H; injection H as <-; cbn; tauto|rewrite put_other in H by exact N].
      pose proof (Lo j t H) as [L1 _]. split; [intros Q; specialize (L1 Q); discriminate L1|intros Q; injection Q as Q; contradiction].
    + intros j Q. injection Q as <-. rewrite <- Le. apply nth_error_Some. rewrite Hi. discriminate.
    + destruct (Nat.eq_dec i j) as [<-|N]; [rewrite (put_same _ _ _ _ _ Hi) in H; injection H as <-; exact (Or i _ Hi)|rewrite put_other in H by exact N; exact (Or j t H)].
  - (* release *)
    destruct (St i _ Hi) as [c' [r' [Q K]]]. cbn [th_calls] in Q. injection Q as <- <-. pose proof Hl as Ha. rewrite (locked_alone y m c K) in Ha.
    pose proof (alone_reachable y m c v m' Re Ha) as R'. destruct (locked_keeps y m c v m' Sy Re Hl) as [K1 [K2 K3]].
    constructor; cbn [wo_mgr wo_lock wo_threads]; auto; [|intros j t H|intros j t H|rewrite put_length; exact Le|discriminate|intros j t H].
    + exact (serially_snoc _ _ _ _ _ _ _ _ Se Ha).
    + destruct (Nat.eq_dec i j) as [<-|N]; [rewrite (put_same _ _ _ _ _ Hi) in H; injection H as <-; exact I|rewrite put_other in H by exact N].
      apply (still_keeps y m m' t K1 K2); [|exact (St j t H)].
      assert (D : switches c \/ ~ switches c) by (destruct c; cbn [switches]; auto). destruct D as [D|D]; [right|left; exact (K3 D)].
      intros d q Eq Hd. apply N. apply (Cp i j _ _ c d (Or i _ Hi) (Or j t H)); auto; apply in_or_app; right; cbn [th_calls]; [left; reflexivity|rewrite Eq; left; reflexivity].
    + split; [|discriminate]. destruct (Nat.eq_dec i j) as [<-|N]; [rewrite (put_same _ _ _ _ _ Hi) in H; injection H as <-; discriminate|rewrite put_other in H by exact N].
      intros Q. destruct (Lo j t H) as [L1 _]. specialize (L1 Q). injection L1 as L1. contradiction.
    + rewrite own_events. destruct (Nat.eqb_spec i j) as [<-|N]; [rewrite (put_same _ _ _ _ _ Hi) in H; injection H as <-|rewrite put_other in H by exact N; exact (Or j t H)].
      pose proof (Or i _ Hi) as O. cbn [th_calls] in *. rewrite map_app, <- app_assoc. exact O.
Qed.

Lemma inv_exec : forall y m0 programs n es w, system_ok y -> compatible programs -> reachable y m0 -> texec y (begun m0 programs) n es w -> inv y m0 programs es w.
Proof.
  intros y m0 programs n es w Sy Cp R T. remember (begun m0 programs) as w0 eqn:E. induction T as [w|w n es w' e w'' T IH S].
  - subst w. apply inv_begun. exact R.
  - exact (inv_step y m0 programs es w' e w'' Sy Cp (IH E) S).
Qed.

(** ** The number of steps, for any programs *)

Definition left_in (t : thread) : nat :=
  match th_calls t with
  | [] => 0
  | _ :: r => 4 * List.length r + match th_phase t with Looking 0 => 4 | Looking _ => 3 | Waiting => 2 | Inside => 1 end
  end.
Definition left_all (ts : list thread) : nat := list_sum (map left_in ts).

Lemma left_put : forall ts i t t', nth_error ts i = Some t -> left_in t' < left_in t -> left_all (put i t' ts) < left_all ts.
Proof.
  unfold left_all. induction ts as [|a ts IH]; intros [|i] t t' H L; try discriminate; cbn [put map list_sum fold_right nth_error] in *.
  - injection H as ->. apply Nat.add_lt_mono_r. exact L.
  - apply Nat.add_lt_mono_l. exact (IH i t t' H L).
Qed.

Lemma left_fresh : forall r, left_in (Thread r (Looking 0)) = 4 * List.length r.
Proof. intros [|c r]; cbn [left_in th_calls th_phase List.length]; lia. Qed.

Lemma next_first : forall y c n m, unlocked y c n m = LNext -> n = 0.
Proof.
  intros y c n m H. destruct c as [need|p h|p w|path|path w|on need]; cbn [unlocked] in H; try discriminate H.
  - destruct (elem_at (sy_root y) p) as [e|]; [destruct (check_get (e_kind e) (hkind_array h))|]; discriminate.
  - destruct n; [reflexivity|]. destruct (mg_tuning m); discriminate.
  - destruct (mg_tuning m); discriminate.
  - destruct (Bool.eqb on (mg_tuning m)); [discriminate|]. destruct (on && negb (mg_allowed m)); discriminate.
Qed.

Lemma step_left : forall y w e w', tstep y w e w' -> left_all (wo_threads w') < left_all (wo_threads w).
Proof.
  intros y w e w' T.
  destruct T as [m l ts i c r n Hi Hu|m l ts i c r n v Hi Hu|m l ts i c r n Hi Hu|m ts i c r Hi|m ts i c r v m' Hi Hl]; cbn [wo_mgr wo_lock wo_threads] in *; apply (left_put _ _ _ _ Hi).
  - apply next_first in Hu. subst n. cbn [left_in th_calls th_phase]. lia.
  - rewrite left_fresh. cbn [left_in th_calls th_phase]. destruct n as [|n]; lia.
  - cbn [left_in th_calls th_phase]. destruct n as [|n]; lia.
  - cbn [left_in th_calls th_phase]. lia.
  - rewrite left_fresh. cbn [left_in th_calls th_phase]. lia.
Qed.

Lemma exec_left : forall y m0 programs n es w, texec y (begun m0 programs) n es w ->
  n + left_all (wo_threads w) <= 4 * list_sum (map (@List.length kcall) programs).
Proof.
  intros y m0 programs n es w T. remember (begun m0 programs) as w0 eqn:E. induction T as [w|w n es w' e w'' T IH S].
  - subst w. cbn [begun wo_threads]. unfold left_all. clear. induction programs as [|p l IH]; cbn [map list_sum fold_right]; [lia|]. rewrite left_fresh. change (fold_right Nat.add 0) with list_sum in *. lia.
  - pose proof (step_left _ _ _ _ S). specialize (IH E). lia.
Qed.

(** ** The lock, for any programs *)

Record mutex (programs : list (list kcall)) (es : list return_) (w : world) : Prop := Mutex {
  u_lock : forall i t, nth_error (wo_threads w) i = Some t -> (th_phase t = Inside <-> wo_lock w = Some i);
  u_busy : forall i t, nth_error (wo_threads w) i = Some t -> th_calls t = [] -> th_phase t = Looking 0;
  u_held : forall i, wo_lock w = Some i -> i < List.length (wo_threads w);
  u_order : forall i t, nth_error (wo_threads w) i = Some t -> nth_error programs i = Some (map rt_call (of_thread i es) ++ th_calls t)
}.

Lemma mutex_begun : forall m programs, mutex programs [] (begun m programs).
Proof.
  intros m programs.
  assert (N : forall i t, nth_error (wo_threads (begun m programs)) i = Some t -> exists p, nth_error programs i = Some p /\ t = Thread p (Looking 0)).
  { intros i t H. cbn [begun wo_threads] in H. rewrite nth_error_map in H. destruct (nth_error programs i) as [p|]; [|discriminate]. cbn in H. injection H as <-. exists p. auto. }
  constructor; cbn [begun wo_lock].
  - intros i t H. destruct (N i t H) as [p [_ ->]]. split; discriminate.
  - intros i t H. destruct (N i t H) as [p [_ ->]]. reflexivity.
  - discriminate.
  - intros i t H. destruct (N i t H) as [p [E ->]]. exact E.
Qed.

Lemma mutex_step : forall y programs es w e w', mutex programs es w -> tstep y w e w' -> mutex programs (es ++ e) w'.
Proof.
  intros y programs es w e w' [Lo Bu He Or] T.
  destruct T as [m l ts i c r n Hi Hu|m l ts i c r n v Hi Hu|m l ts i c r n Hi Hu|m ts i c r Hi|m ts i c r v m' Hi Hl]; cbn [wo_mgr wo_lock wo_threads] in *;
    rewrite ?app_nil_r; (constructor; cbn [wo_mgr wo_lock wo_threads]; [intros j t H|intros j t H|rewrite put_length; intros j H; try exact (He j H)|intros j t H; rewrite ?own_events]).
  all: try (let t0 := type of H in match t0 with nth_error _ _ = _ => idtac end; destruct (Nat.eqb_spec i j) as [<-|N]; [rewrite (put_same _ _ _ _ _ Hi) in H; injection H as <-; cbn [th_calls th_phase] in *|rewrite put_other in H by exact N; try (match goal with t : thread |- _ => first [exact (Bu j t H)|exact (Or j t H)] end)]).
  all: try discriminate; try reflexivity; try exact (Or i _ Hi); try (match goal with t : thread |- _ => exact (Lo j t H) end).
  all: try (pose proof (Or i _ Hi) as O; cbn [th_calls] in *; rewrite map_app, <- app_assoc; exact O).
  all: try (pose proof (Lo i _ Hi) as [L1 L2]; cbn [th_phase] in *; split; [discriminate|intros Q; specialize (L2 Q); discriminate L2]).
  - split; reflexivity.
  - pose proof (Lo j t H) as [L1 _]. split; [intros Q; specialize (L1 Q); discriminate L1|intros Q; injection Q as Q; contradiction].
  - injection H as <-. apply nth_error_Some. rewrite Hi. discriminate.
  - split; discriminate.
  - split; [|discriminate]. intros Q. destruct (Lo j t H) as [L1 _]. specialize (L1 Q). injection L1 as L1. contradiction.
Qed.

Lemma mutex_exec : forall y m0 programs n es w, texec y (begun m0 programs) n es w -> mutex programs es w.
Proof.
  intros y m0 programs n es w T. remember (begun m0 programs) as w0 eqn:E. induction T as [w|w n es w' e w'' T IH S].
  - subst w. apply mutex_begun.
  - exact (mutex_step y programs es w' e w'' (IH E) S).
Qed.

Lemma unfinished : forall ts, (forall t, In t ts -> th_calls t = []) \/ exists i c r ph, nth_error ts i = Some (Thread (c :: r) ph).
Proof.
  induction ts as [|[[|c r] ph] ts IH]; [left; intros t []| |right; exists 0, c, r, ph; reflexivity].
  destruct IH as [IH|[i [c [r [ph' H]]]]]; [left; intros t [<-|H]; auto|right; exists (S i), c, r, ph'; exact H].
Qed.

Lemma stuck : forall y programs es w, mutex programs es w -> ~ finished w ->
  (exists e w', tstep y w e w') \/ exists i c r, nth_error (wo_threads w) i = Some (Thread (c :: r) Inside) /\ forall x, locked y c (wo_mgr w) <> Ok x.
Proof.
  intros y programs es [m l ts] [Lo Bu He Or] N. cbn [wo_mgr wo_lock wo_threads] in *.
  assert (In_ : forall i c r, nth_error ts i = Some (Thread (c :: r) Inside) -> (exists e w', tstep y (World m l ts) e w') \/ exists i c r, nth_error ts i = Some (Thread (c :: r) Inside) /\ forall x, locked y c m <> Ok x).
  { intros i c r H. destruct (Lo i _ H) as [L _]. specialize (L eq_refl). subst l. destruct (locked y c m) as [[v m']| | |] eqn:E; [left|right|right|right]; try (exists i, c, r; split; [exact H|intros x Q; congruence]).
    exists [Return i c v], (World m' None (put i (Thread r (Looking 0)) ts)). exact (t_release _ _ _ _ _ _ _ _ H E). }
  destruct l as [k|].
  - assert (exists t, nth_error ts k = Some t) as [[cs ph] H] by (specialize (He k eq_refl); apply nth_error_Some in He; destruct (nth_error ts k) as [t|]; [exists t; reflexivity|contradiction]).
    destruct (Lo k _ H) as [_ L]. specialize (L eq_refl). cbn in L. subst ph. destruct cs as [|c r]; [specialize (Bu k _ H eq_refl); discriminate|]. exact (In_ k c r H).
  - destruct (unfinished ts) as [F|[i [c [r [ph H]]]]]; [destruct N; exact F|]. destruct ph as [n| |].
    + left. destruct (unlocked y c n m) as [v| |] eqn:U.
      * eexists _, _. exact (t_done _ _ _ _ _ _ _ _ _ H U).
      * eexists _, _. exact (t_next _ _ _ _ _ _ _ _ H U).
      * eexists _, _. exact (t_wait _ _ _ _ _ _ _ _ H U).
    + left. eexists _, _. exact (t_lock _ _ _ _ _ _ H).
    + exact (In_ i c r H).
Qed.
