(** The import of settings as a sequence of writes of parameters. *)
From Coq Require Import List Arith ZArith Bool Ascii String Lia.
From Verif Require Import Base BaseProofs TextModel ParamTypeModel BlackboardModel BitModel ArrayModel TreeModel TreeSpec TreeProofs MemSpec SyncModel DomainModel
  DomainSpec MgrModel MgrSpec ValueSpec XmlModel XmlSpec.
Import ListNotations.
Local Open Scope nat_scope.

Record item := Item { it_kind : ekind; it_off : nat; it_text : str; it_raw : bool }.

Definition ox_text (x : option xnode) : str := match x with Some x => x_text x | None => [] end.
Definition ox_raw (x : option xnode) : bool := match x with Some x => str_eqb (x_attr0 (lit "ValueSpace") x) (lit "Raw") | None => false end.
Definition ox_elems (x : option xnode) : list xnode := match x with Some x => x_elems x | None => [] end.

Fixpoint items (e : elem) (x : option xnode) (off : nat) : list item :=
  match e with
  | Elem _ k cs =>
      if is_param k then [Item k off (ox_text x) (ox_raw x)]
      else (fix go (cs : list elem) (xs : list xnode) (off : nat) : list item :=
              match cs with
              | [] => []
              | c :: r => items c (hd_error xs) off ++ go r (tl xs) (off + footprint c)
              end) cs (ox_elems x) off
  end.

Fixpoint items_list (cs : list elem) (xs : list xnode) (off : nat) : list item :=
  match cs with
  | [] => []
  | c :: r => items c (hd_error xs) off ++ items_list r (tl xs) (off + footprint c)
  end.

Lemma items_eq : forall nm k cs x off,
  items (Elem nm k cs) x off = if is_param k then [Item k off (ox_text x) (ox_raw x)] else items_list cs (ox_elems x) off.
Proof.
  reflexivity.
Qed.

Fixpoint run_items (l : list item) (base : nat) (hex raw : bool) (bb : blackboard) : outcome (bool * bool * blackboard) :=
  match l with
  | [] => Ok (true, raw, bb)
  | i :: r =>
      let raw' := if spaced (it_kind i) then it_raw i else raw in
      do o <- leaf_set (it_kind i) (Fmt raw' hex) [] (it_text i) (it_off i) base bb;
      if fst o then run_items r base hex raw' (snd o) else Ok (false, raw', snd o)
  end.

Definition gate (fit : bool) (o : outcome (bool * bool * blackboard)) : outcome (bool * bool * blackboard) :=
  do r <- o; let '(ok, raw, bb) := r in Ok (ok && fit, raw, bb).

Lemma run_items_app : forall l1 l2 base hex raw bb,
  run_items (l1 ++ l2) base hex raw bb
  = do r <- run_items l1 base hex raw bb; let '(ok, raw1, bb1) := r in
    if ok : bool then run_items l2 base hex raw1 bb1 else Ok (false, raw1, bb1).
Proof.
  induction l1 as [|i l1 IH]; intros l2 base hex raw bb; cbn [run_items app]; auto.
  destruct (leaf_set _ _ _ _ _ _ _) as [[ok b1]| | |]; cbn [obind fst snd]; auto. destruct ok; auto.
Qed.

Fixpoint import_list (cs : list elem) (xs : list xnode) (off base : nat) (hex raw : bool) (bb : blackboard) : outcome (bool * bool * blackboard) :=
  match cs with
  | [] => Ok (match xs with [] => true | _ => false end, raw, bb)
  | c :: cr =>
      match xs with
      | [] => Ok (false, raw, bb)
      | xc :: xr =>
          if negb (type_matches (e_kind c) xc) then Ok (false, raw, bb)
          else if negb (str_eqb (x_name xc) (e_name c)) then Ok (false, raw, bb)
          else do r <- import_settings c xc off base hex raw bb;
               let '(ok, raw1, bb1) := r in
               if ok : bool then import_list cr xr (off + footprint c) base hex raw1 bb1 else Ok (false, raw1, bb1)
      end
  end.

Lemma import_eq : forall nm k cs x off base hex raw bb,
  import_settings (Elem nm k cs) x off base hex raw bb
  = let raw' := value_space k x raw in
    do r <- (if is_param k then leaf_set k (Fmt raw' hex) [] (x_text x) off base bb else Ok (true, bb));
    if fst r then import_list cs (x_elems x) off base hex raw' (snd r) else Ok (false, raw', snd r).
Proof.
  intros nm k cs x off base hex raw bb. cbn [import_settings]. cbv zeta.
  match goal with |- obind ?a _ = _ => destruct a as [[ok b1]| | |] end; cbn [obind fst snd]; auto. destruct ok; auto.
  generalize (x_elems x). revert off b1. generalize (value_space k x raw).
  induction cs as [|c cs IH]; intros r off b1 xs; cbn [import_list]; auto. destruct xs as [|xc xr]; auto.
  destruct (negb (type_matches (e_kind c) xc)); auto. destruct (negb (str_eqb (x_name xc) (e_name c))); auto.
  destruct (import_settings c xc off base hex r b1) as [[[ok1 r1] b2]| | |]; cbn [obind]; auto. destruct ok1; auto.
Qed.

(** ** Fitting *)

Definition fits_list (cs : list elem) (xs : list xnode) : Prop := Forall2 (fun c xc => tagged c xc /\ fits c xc) cs xs.

Lemma fits_iff : forall nm k cs x, fits (Elem nm k cs) x <-> fits_list cs (x_elems x).
Proof. intros. split; intros H; [inversion H; auto|constructor; auto]. Qed.

Lemma tagged_spec : forall c xc, tagged c xc <-> type_matches (e_kind c) xc = true /\ str_eqb (x_name xc) (e_name c) = true.
Proof.
  intros c xc. unfold tagged, type_matches. rewrite orb_true_iff, andb_true_iff, !str_eqb_eq. tauto.
Qed.

(** Below a parameter there is nothing. *)
Definition bare (e : elem) : Prop := forall r c, elem_at e r = Some c -> is_param (e_kind c) = true -> e_children c = [].

Lemma bare_child : forall nm k cs c, bare (Elem nm k cs) -> In c cs -> bare c.
Proof.
  intros nm k cs c B I r d H. apply In_nth_error in I. destruct I as [i N]. apply (B (i :: r)). cbn [elem_at e_children]. rewrite N. auto.
Qed.

Lemma bare_root : forall root p e, elem_wf root = true -> elem_at root p = Some e -> bare e.
Proof.
  intros root p e W E r c H P. assert (elem_at root (p ++ r) = Some c) as X by (rewrite elem_at_app, E; auto).
  destruct (elem_wf_at (p ++ r) root c W X) as [Wc|[t [nm [-> _]]]]; auto. apply param_no_children; auto.
Qed.

(** The import runs some of the writes, from the first on; all of them when the document has the structure of the element. *)
Definition imports (e : elem) (x : xnode) : Prop :=
  forall off base hex, exists l tl fit, items e (Some x) off = l ++ tl /\ (fit = true <-> fits e x) /\ (fit = true -> tl = [])
    /\ forall raw bb, import_settings e x off base hex raw bb = gate fit (run_items l base hex raw bb).

Lemma import_list_items : forall cs, Forall (fun c => forall x, imports c x) cs -> forall xs off base hex,
  exists l tl fit, items_list cs xs off = l ++ tl /\ (fit = true <-> fits_list cs xs) /\ (fit = true -> tl = [])
    /\ forall raw bb, import_list cs xs off base hex raw bb = gate fit (run_items l base hex raw bb).
Proof.
  intros cs H. induction H as [|c cs Hc H IH]; intros xs off base hex.
  - exists [], [], (match xs with [] => true | _ => false end). split; [reflexivity|]. split; [|split; [auto|intros; reflexivity]].
    destruct xs; split; intros X; try constructor; try discriminate. inversion X.
  - cbn [items_list import_list]. destruct xs as [|xc xr].
    { exists [], (items c None off ++ items_list cs [] (off + footprint c)), false. split; [reflexivity|]. split; [|split; [discriminate|intros; reflexivity]].
      split; [discriminate|]. intros X. inversion X. }
    cbn [hd_error tl].
    destruct (type_matches (e_kind c) xc && str_eqb (x_name xc) (e_name c)) eqn:T.
    + apply andb_true_iff in T. destruct (Hc xc off base hex) as [l1 [t1 [f1 [I1 [F1 [T1 R1]]]]]].
      assert (tagged c xc) as Tg by (apply tagged_spec; auto). destruct T as [-> ->]. cbn [negb].
      destruct f1.
      * rewrite (T1 eq_refl), app_nil_r in I1. destruct (IH xr (off + footprint c) base hex) as [l2 [t2 [f2 [I2 [F2 [T2 R2]]]]]].
        exists (l1 ++ l2), t2, f2. split; [rewrite I1, I2, app_assoc; auto|]. split; [|split; auto].
        { rewrite F2. split; intros X; [constructor; auto; split; auto; apply F1; auto|inversion X; auto]. }
        intros raw bb. rewrite R1, run_items_app. destruct (run_items l1 base hex raw bb) as [[[ok r1] b1]| | |]; cbn [gate obind]; auto.
        rewrite andb_true_r. destruct ok; auto.
      * exists l1, (t1 ++ items_list cs xr (off + footprint c)), false. split; [rewrite I1, app_assoc; auto|]. split; [|split; [discriminate|]].
        { split; [discriminate|]. intros X. inversion X as [|? ? ? ? [_ Y] _]; subst. apply F1 in Y. discriminate. }
        intros raw bb. rewrite R1. destruct (run_items l1 base hex raw bb) as [[[ok r1] b1]| | |]; cbn [gate obind]; auto.
        rewrite andb_false_r. auto.
    + exists [], (items c (Some xc) off ++ items_list cs xr (off + footprint c)), false. split; [reflexivity|]. split; [|split; [discriminate|]].
      { split; [discriminate|]. intros X. inversion X as [|? ? ? ? [Y _] _]; subst. apply tagged_spec in Y. destruct Y as [Y1 Y2]. rewrite Y1, Y2 in T. discriminate. }
      intros raw bb. destruct (type_matches (e_kind c) xc); [|reflexivity]. destruct (str_eqb (x_name xc) (e_name c)); [discriminate|reflexivity].
Qed.

Lemma import_items : forall e, bare e -> forall x, imports e x.
Proof.
  intros e. induction e as [nm k cs IH] using elem_ind_nested. intros B x off base hex.
  assert (Forall (fun c => forall x, imports c x) cs) as H.
  { rewrite Forall_forall in *. intros c I. apply IH; auto. eapply bare_child; eauto. }
  rewrite items_eq. destruct (is_param k) eqn:Pk.
  - assert (cs = []) as -> by (apply (B [] (Elem nm k cs)); auto).
    destruct (x_elems x) as [|y ys] eqn:E.
    + exists [Item k off (x_text x) (ox_raw (Some x))], [], true. split; [reflexivity|]. split; [|split; [auto|]].
      { split; auto. intros _. apply fits_iff. rewrite E. constructor. }
      intros raw bb. rewrite import_eq, Pk, E. cbv zeta. cbn [run_items it_kind it_text it_off it_raw import_list]. unfold value_space, ox_raw.
      destruct (leaf_set _ _ _ _ _ _ _) as [[ok b1]| | |]; cbn [obind gate fst snd]; auto. destruct ok; auto.
    + exists [Item k off (x_text x) (ox_raw (Some x))], [], false. split; [reflexivity|]. split; [|split; [auto|]].
      { split; [discriminate|]. intros X. apply fits_iff in X. rewrite E in X. inversion X. }
      intros raw bb. rewrite import_eq, Pk, E. cbv zeta. cbn [run_items it_kind it_text it_off it_raw import_list]. unfold value_space, ox_raw.
      destruct (leaf_set _ _ _ _ _ _ _) as [[ok b1]| | |]; cbn [obind gate fst snd]; auto. destruct ok; auto.
  - cbn [ox_elems]. destruct (import_list_items cs H (x_elems x) off base hex) as [l [t [f [I [F [T R]]]]]].
    exists l, t, f. split; auto. split; [rewrite fits_iff; auto|]. split; auto.
    intros raw bb. rewrite import_eq, Pk. cbv zeta. cbn [obind fst snd]. unfold value_space.
    assert (spaced k = false) as -> by (destruct k; auto; discriminate). apply R.
Qed.

(** ** The writes in terms of positions *)

Fixpoint params_list (i : nat) (cs : list elem) : list (list nat * ekind) :=
  match cs with
  | [] => []
  | c :: r => map (fun pk => (i :: fst pk, snd pk)) (params c) ++ params_list (S i) r
  end.

Lemma params_eq : forall nm k cs, params (Elem nm k cs) = if is_param k then [([], k)] else params_list 0 cs.
Proof.
  reflexivity.
Qed.

Definition ox_at (x : option xnode) (r : list nat) : option xnode := match x with Some x => x_at x r | None => None end.

Definition item_at (e : elem) (x : option xnode) (off : nat) (pk : list nat * ekind) : item :=
  Item (snd pk) (offset_in e (fst pk) off) (ox_text (ox_at x (fst pk))) (ox_raw (ox_at x (fst pk))).

Lemma hd_error_nth : forall A (l : list A), hd_error l = nth_error l 0.
Proof. destruct l; auto. Qed.

Lemma tl_skipn : forall A n (l : list A), tl (skipn n l) = skipn (S n) l.
Proof. induction n as [|n IH]; intros [|a l]; auto. cbn [skipn] in *. rewrite IH. destruct l; auto. Qed.

Lemma items_params : forall e x off, items e x off = map (item_at e x off) (params e).
Proof.
  intros e. induction e as [nm k cs IH] using elem_ind_nested. intros x off. rewrite items_eq, params_eq.
  destruct (is_param k) eqn:Pk.
  - cbn [map]. unfold item_at. cbn [fst snd offset_in]. f_equal. destruct x; auto.
  - assert (forall cs2 cs1, cs = cs1 ++ cs2 ->
      items_list cs2 (skipn (List.length cs1) (ox_elems x)) (off + list_sum (map footprint cs1))
      = map (item_at (Elem nm k cs) x off) (params_list (List.length cs1) cs2)) as G.
    { induction cs2 as [|c cs2 G]; intros cs1 E; cbn [items_list params_list]; auto.
      assert (nth_error cs (List.length cs1) = Some c) as N by (rewrite E, nth_error_app2, Nat.sub_diag by lia; auto).
      assert (In c cs) as Ic by (apply nth_error_In in N; auto).
      rewrite Forall_forall in IH. rewrite map_app, map_map. f_equal.
      - rewrite (IH c Ic). apply map_ext. intros [r k2]. unfold item_at. cbn [fst snd offset_in e_children]. rewrite N.
        assert (firstn (List.length cs1) cs = cs1) as -> by (rewrite E, firstn_app, Nat.sub_diag, firstn_all; cbn [firstn]; apply app_nil_r).
        assert (ox_at (hd_error (skipn (List.length cs1) (ox_elems x))) r = ox_at x (List.length cs1 :: r)) as ->; auto.
        rewrite hd_error_nth, nth_error_skipn, Nat.add_0_r. destruct x as [x|]; cbn [ox_at ox_elems x_at].
        + destruct (nth_error (x_elems x) (List.length cs1)); auto.
        + destruct (List.length cs1); auto.
      - specialize (G (cs1 ++ [c])). rewrite app_length, map_app, list_sum_app in G. cbn [List.length map list_sum] in G.
        rewrite Nat.add_1_r in G. rewrite <- G by (rewrite E, <- app_assoc; auto). f_equal; [|unfold list_sum; simpl; lia].
        apply tl_skipn. }
    specialize (G cs [] eq_refl). cbn [List.length map list_sum skipn fold_right] in G. rewrite <- G. f_equal. unfold list_sum. simpl. lia.
Qed.

(** The positions of the parameters. *)
Lemma params_list_In : forall cs i r k, In (r, k) (params_list i cs) <-> exists j c r', nth_error cs j = Some c /\ r = (i + j) :: r' /\ In (r', k) (params c).
Proof.
  induction cs as [|c cs IH]; intros i r k; cbn [params_list].
  - split; [intros []|]. intros [[|j] [c [r' [H _]]]]; discriminate.
  - rewrite in_app_iff, IH, in_map_iff. split.
    + intros [[[r' k'] [H1 H2]]|[j [d [r' [H1 [H2 H3]]]]]].
      * cbn [fst snd] in H1. inversion H1; subst. exists 0, c, r'. rewrite Nat.add_0_r. auto.
      * exists (S j), d, r'. split; auto. split; auto. rewrite H2. f_equal. lia.
    + intros [[|j] [d [r' [H1 [H2 H3]]]]]; cbn [nth_error] in H1.
      * inversion H1; subst. left. exists (r', k). rewrite Nat.add_0_r. auto.
      * right. exists j, d, r'. split; auto. split; auto. rewrite H2. f_equal. lia.
Qed.

Lemma params_In : forall e, bare e -> forall r k, In (r, k) (params e) <-> exists c, elem_at e r = Some c /\ e_kind c = k /\ is_param k = true.
Proof.
  intros e. induction e as [nm k0 cs IH] using elem_ind_nested. intros B r k. rewrite params_eq. destruct (is_param k0) eqn:Pk.
  - assert (cs = []) as -> by (apply (B [] (Elem nm k0 cs)); auto). split.
    + intros [H|[]]. inversion H; subst. exists (Elem nm k []). auto.
    + intros [c [H1 [H2 H3]]]. destruct r as [|i r]; cbn [elem_at e_children] in H1; [|destruct i; discriminate].
      inversion H1; subst. cbn [e_kind]. left. auto.
  - rewrite params_list_In. split.
    + intros [j [c [r' [H1 [H2 H3]]]]]. cbn [Nat.add] in H2. subst r. pose proof (nth_error_In _ _ H1) as I. rewrite Forall_forall in IH.
      apply (IH c I (bare_child _ _ _ _ B I)) in H3. cbn [elem_at e_children]. rewrite H1. auto.
    + intros [c [H1 [H2 H3]]]. destruct r as [|i r]; cbn [elem_at e_children] in H1; [inversion H1; subst c; cbn [e_kind] in H2; congruence|].
      destruct (nth_error cs i) as [d|] eqn:N; [|discriminate]. pose proof (nth_error_In _ _ N) as I. rewrite Forall_forall in IH.
      exists i, d, r. split; auto. split; auto. apply (IH d I (bare_child _ _ _ _ B I)). eauto.
Qed.

Lemma params_list_NoDup : forall cs, Forall (fun c => NoDup (map fst (params c))) cs -> forall i, NoDup (map fst (params_list i cs)).
Proof.
  intros cs H. induction H as [|c cs Hc H IH]; intros i; cbn [params_list]; [constructor|].
  rewrite map_app, map_map. cbn [fst]. assert (forall l : list (list nat * ekind), NoDup (map fst l) -> NoDup (map (fun pk => i :: fst pk) l)) as M.
  { intros l. induction l as [|[r k] l IHl]; intros N; cbn [map fst] in *; constructor; inversion N; subst; auto.
    intros I. apply in_map_iff in I. destruct I as [[r2 k2] [I1 I2]]. cbn [fst] in I1. inversion I1; subst. apply H2. apply in_map_iff. exists (r, k2). auto. }
  assert (forall l1 l2 : list (list nat), NoDup l1 -> NoDup l2 -> (forall r, In r l1 -> ~ In r l2) -> NoDup (l1 ++ l2)) as Ap.
  { intros l1. induction l1 as [|a l1 IHl]; intros l2 N1 N2 D; auto. inversion N1; subst. cbn [app]. constructor.
    - intros I. apply in_app_iff in I. destruct I as [I|I]; auto. apply (D a); simpl; auto.
    - apply IHl; auto. intros r I. apply D. simpl. auto. }
  apply Ap; auto.
  intros r I1 I2. apply in_map_iff in I1. destruct I1 as [[r1 k1] [E1 _]]. apply in_map_iff in I2. destruct I2 as [[r2 k2] [E2 I2]].
  cbn [fst] in E1, E2. subst r2. apply params_list_In in I2. destruct I2 as [j [d [r' [_ [E _]]]]]. subst r. inversion E. lia.
Qed.

Lemma params_NoDup : forall e, NoDup (map fst (params e)).
Proof.
  intros e. induction e as [nm k cs IH] using elem_ind_nested. rewrite params_eq. destruct (is_param k).
  - constructor; [intros []|constructor].
  - apply params_list_NoDup. auto.
Qed.
