(** Proofs about component libraries and instantiation. *)
From Coq Require Import List Arith ZArith Bool Ascii String Lia Relations Permutation.
From Verif Require Import Base BaseProofs TextModel TextSpec TextProofs TreeModel TreeSpec MapModel MapSpec MapProofs TypeModel TypeSpec.
Import ListNotations.
Local Open Scope nat_scope.

Lemma tel_ind_nested : forall P : tel -> Prop,
  (forall n k m, P (TLeaf n k m)) -> (forall n b m bits, P (TBits n b m bits)) ->
  (forall n m l cs, Forall P cs -> P (TBlock n m l cs)) -> (forall n m l ty, P (TComp n m l ty)) -> forall t, P t.
Proof.
  intros P H1 H2 H3 H4. fix IH 1. intros [n k m|n b m bits|n m l cs|n m l ty]; [apply H1|apply H2|apply H3|apply H4]. induction cs as [|c cs IHc]; constructor; [apply IH|exact IHc].
Qed.

Lemma ltel_ind_nested : forall P : ltel -> Prop,
  (forall n k m, P (LLeaf n k m)) -> (forall n b m bits, P (LBits n b m bits)) ->
  (forall n m l cs, Forall P cs -> P (LBlock n m l cs)) -> (forall n m l i, P (LComp n m l i)) -> forall t, P t.
Proof.
  intros P H1 H2 H3 H4. fix IH 1. intros [n k m|n b m bits|n m l cs|n m l i]; [apply H1|apply H2|apply H3|apply H4]. induction cs as [|c cs IHc]; constructor; [apply IH|exact IHc].
Qed.

Lemma load_all_spec : forall A B (f : A -> option B) l, match load_all f l with
  | Some ys => Forall2 (fun x y => f x = Some y) l ys
  | None => exists x, In x l /\ f x = None
  end.
Proof.
  intros A B f. induction l as [|x l IH]; cbn [load_all]; [constructor|]. destruct (f x) as [y|] eqn:E; [|exists x; simpl; auto].
  destruct (load_all f l); [constructor; auto|]. destruct IH as [z [H1 H2]]. exists z. simpl. auto.
Qed.

Lemma load_all_Some : forall A B (f : A -> option B) l, (exists ys, load_all f l = Some ys) <-> forall x, In x l -> exists y, f x = Some y.
Proof.
  intros A B f l. pose proof (load_all_spec A B f l) as H. destruct (load_all f l) as [ys|].
  - split; [|eauto]. intros _. clear - H. induction H as [|x y l ys E H IH]; intros z I; [destruct I|]. destruct I as [<-|I]; eauto.
  - split; [intros [ys E]; discriminate|]. intros A1. destruct H as [x [I N]]. destruct (A1 x I) as [y E]. congruence.
Qed.

Lemma load_mapping_ok : forall raw, (exists m, load_mapping raw = Some m) <-> mapping_ok raw.
Proof.
  intros raw. unfold load_mapping, mapping_ok. destruct raw as [|c r]; [split; eauto|]. destruct (written_items (c :: r)) as [kvs W].
  pose proof (md_init_spec _ _ W) as H. destruct (md_init (c :: r)) as [d|].
  - split; [|eauto]. intros _. right. exists kvs. tauto.
  - split; [intros [m E]; discriminate|]. intros [E|[kvs' [W' N]]]; [discriminate|]. exfalso. apply H. rewrite (written_unique _ _ W), <- (written_unique _ _ W'). auto.
Qed.

Lemma load_mapping_distinct : forall raw m, load_mapping raw = Some m -> distinct_keys m.
Proof.
  intros raw m. unfold load_mapping. destruct raw as [|c r].
  - intros H. inversion H; subst. intros d [].
  - destruct (written_items (c :: r)) as [kvs W]. pose proof (md_init_spec _ _ W) as H. destruct (md_init (c :: r)) as [d|]; [|discriminate].
    intros E. inversion E; subst. intros d' [<-|[]]. tauto.
Qed.

Lemma load_block : forall names parent n raw len cs, load_tel names parent (TBlock n raw len cs) =
  match load_mapping raw, load_all (load_tel names None) cs with Some m, Some cs' => Some (LBlock n m len cs') | _, _ => None end.
Proof.
  intros. cbn [load_tel]. destruct (load_mapping raw) as [m|]; auto.
  assert ((fix go (cs : list tel) : option (list ltel) :=
             match cs with
             | [] => Some []
             | x :: r => match load_tel names None x with
                         | Some y => match go r with Some ys => Some (y :: ys) | None => None end
                         | None => None
                         end
             end) cs = load_all (load_tel names None) cs) as ->.
  { induction cs as [|c cs IH]; cbn [load_all]; auto. rewrite IH. auto. }
  auto.
Qed.

Lemma load_tel_ok : forall names t parent,
  (exists l, load_tel names parent t = Some l) <->
  (forall raw, mapping_in t raw -> mapping_ok raw) /\ (forall ty, mentions t ty -> exists j, type_rank names ty 0 = Some j)
  /\ (forall n m l ty j, t = TComp n m l ty -> parent = Some j -> type_rank names ty 0 <> Some j).
Proof.
  intros names. induction t as [n k raw|n b raw bits|n raw len cs IH|n raw len ty] using tel_ind_nested; intros parent.
  - cbn [load_tel]. pose proof (load_mapping_ok raw) as M. destruct (load_mapping raw) as [m|]; split.
    + intros _. split; [|split; [intros ty H; inversion H|intros; discriminate]]. intros r H. inversion H; subst. apply M. eauto.
    + eauto.
    + intros [l E]. discriminate.
    + intros [H _]. destruct (proj2 M (H raw (mi_leaf _ _ _))) as [m E]. discriminate.
  - cbn [load_tel]. pose proof (load_mapping_ok raw) as M. destruct (load_mapping raw) as [m|]; split.
    + intros _. split; [|split; [intros ty H; inversion H|intros; discriminate]]. intros r H. inversion H; subst. apply M. eauto.
    + eauto.
    + intros [l E]. discriminate.
    + intros [H _]. destruct (proj2 M (H raw (mi_bits _ _ _ _))) as [m E]. discriminate.
  - rewrite load_block. pose proof (load_mapping_ok raw) as M. pose proof (load_all_Some _ _ (load_tel names None) cs) as A. rewrite Forall_forall in IH.
    assert ((exists l, match load_mapping raw, load_all (load_tel names None) cs with Some m, Some cs' => Some (LBlock n m len cs') | _, _ => None end = Some l)
            <-> (exists m, load_mapping raw = Some m) /\ exists ys, load_all (load_tel names None) cs = Some ys) as ->.
    { destruct (load_mapping raw), (load_all (load_tel names None) cs); split; try (intros [? ?]; discriminate); eauto.
      - intros [_ [? ?]]; discriminate.
      - intros [[? ?] _]; discriminate.
      - intros [[? ?] _]; discriminate. }
    rewrite M, A. split.
    + intros [H1 H2]. split; [|split; [|intros; discriminate]].
      * intros r H. inversion H; subst; auto. apply (IH c) with (parent := None) in H2; auto. apply H2. auto.
      * intros ty H. inversion H; subst. apply (IH c) with (parent := None) in H2; auto. apply H2. auto.
    + intros [H1 [H2 _]]. split; [apply H1; constructor|]. intros c I. apply IH; auto. split; [|split; [|intros; discriminate]].
      * intros r H. apply H1. eapply mi_child; eauto.
      * intros ty H. apply H2. eapply mn_block; eauto.
  - cbn [load_tel]. pose proof (load_mapping_ok raw) as M. destruct (type_rank names ty 0) as [i|] eqn:R.
    + destruct (match parent with Some j => i =? j | None => false end) eqn:S.
      * split; [intros [l E]; discriminate|]. intros [_ [_ H]]. destruct parent as [j|]; [|discriminate]. apply Nat.eqb_eq in S. subst j.
        exfalso. apply (H n raw len ty i); auto.
      * split.
        -- intros H. split; [|split].
           ++ intros r Hr. inversion Hr; subst. apply M. destruct (load_mapping r); [eauto|]. destruct H as [l E]. discriminate.
           ++ intros ty' H'. inversion H'; subst. eauto.
           ++ intros n' m' l' ty' j E P. inversion E; subst. rewrite R. intros X. inversion X; subst. rewrite Nat.eqb_refl in S. discriminate.
        -- intros [H _]. destruct (proj2 M (H raw (mi_comp _ _ _ _))) as [m ->]. eauto.
    + split; [intros [l E]; discriminate|]. intros [_ [H _]]. destruct (H ty (mn_comp _ _ _ _)) as [j E]. congruence.
Qed.

(** References of the loaded elements. *)
Inductive lrefers : ltel -> nat -> Prop :=
| lr_comp : forall n m l i, lrefers (LComp n m l i) i
| lr_block : forall n m l cs c i, In c cs -> lrefers c i -> lrefers (LBlock n m l cs) i.

Lemma Forall2_In_l : forall A B (R : A -> B -> Prop) l l' x, Forall2 R l l' -> In x l -> exists y, In y l' /\ R x y.
Proof.
  intros A B R l l' x F. induction F; intros I; [destruct I|]. destruct I as [<-|I]; simpl; eauto. destruct (IHF I) as [z [? ?]]; eauto.
Qed.
Lemma Forall2_In_r : forall A B (R : A -> B -> Prop) l l' y, Forall2 R l l' -> In y l' -> exists x, In x l /\ R x y.
Proof.
  intros A B R l l' y F. induction F; intros I; [destruct I|]. destruct I as [<-|I]; simpl; eauto. destruct (IHF I) as [z [? ?]]; eauto.
Qed.

Lemma load_tel_refs : forall names t parent l, load_tel names parent t = Some l ->
  forall j, lrefers l j <-> exists ty, mentions t ty /\ type_rank names ty 0 = Some j.
Proof.
  intros names. induction t as [n k raw|n b raw bits|n raw len cs IH|n raw len ty] using tel_ind_nested; intros parent l E j.
  - cbn [load_tel] in E. destruct (load_mapping raw); inversion E; subst. split; [intros H; inversion H|]. intros [ty [H _]]. inversion H.
  - cbn [load_tel] in E. destruct (load_mapping raw); inversion E; subst. split; [intros H; inversion H|]. intros [ty [H _]]. inversion H.
  - rewrite load_block in E. destruct (load_mapping raw) as [m|]; [|discriminate]. pose proof (load_all_spec _ _ (load_tel names None) cs) as A.
    destruct (load_all (load_tel names None) cs) as [ys|]; inversion E; subst. rewrite Forall_forall in IH. split.
    + intros H. inversion H as [|n' m' l' cs' c' i' Ic Rc]; subst. destruct (Forall2_In_r _ _ _ _ _ _ A Ic) as [x [I X]]. apply (IH x I _ _ X) in Rc. destruct Rc as [ty [B C]].
      exists ty. split; auto. eapply mn_block; eauto.
    + intros [ty [H R]]. inversion H as [|n' m' l' cs' c' i' Ic Rc]; subst. destruct (Forall2_In_l _ _ _ _ _ _ A Ic) as [y [I X]]. apply (lr_block _ _ _ _ y); auto.
      apply (IH c' Ic _ _ X). eauto.
  - cbn [load_tel] in E. destruct (type_rank names ty 0) as [i|] eqn:R; [|discriminate].
    destruct (match parent with Some j => i =? j | None => false end); [discriminate|]. destruct (load_mapping raw); inversion E; subst. split.
    + intros H. inversion H; subst. exists ty. split; auto. constructor.
    + intros [ty' [H R']]. inversion H; subst. rewrite R in R'. inversion R'; subst. constructor.
Qed.

Lemma type_rank_spec : forall names n k, match type_rank names n k with
  | Some i => exists j, i = k + j /\ nth_error names j = Some n /\ forall j', j' < j -> nth_error names j' <> Some n
  | None => ~ In n names
  end.
Proof.
  induction names as [|x names IH]; intros n k; cbn [type_rank]; [intros []|]. destruct (str_eqb x n) eqn:E.
  - apply str_eqb_eq in E. subst. exists 0. split; [lia|]. split; auto. intros; lia.
  - apply str_eqb_neq in E. specialize (IH n (S k)). destruct (type_rank names n (S k)).
    + destruct IH as [j [-> [A B]]]. exists (S j). split; [lia|]. split; auto. intros [|j'] L; simpl; [congruence|]. apply B. lia.
    + intros [H|H]; auto.
Qed.

Lemma nth_error_map_firstn : forall ts i j (n : str), nth_error (map ct_name (firstn i ts)) j = Some n <-> j < i /\ exists t, nth_error ts j = Some t /\ ct_name t = n.
Proof.
  intros ts i j n. rewrite nth_error_map. destruct (Nat.lt_ge_cases j i) as [L|L].
  - rewrite nth_error_firstn by auto. destruct (nth_error ts j) as [t|]; simpl; split.
    + intros H. inversion H; subst. eauto.
    + intros [_ [t' [E <-]]]. congruence.
    + discriminate.
    + intros [_ [t' [E _]]]. discriminate.
  - rewrite nth_error_firstn_none by auto. simpl. split; [discriminate|]. intros [H _]. lia.
Qed.

Lemma type_rank_first : forall ts i n j, type_rank (map ct_name (firstn i ts)) n 0 = Some j <-> j < i /\ first_named ts n j.
Proof.
  intros ts i n j. pose proof (type_rank_spec (map ct_name (firstn i ts)) n 0) as H. destruct (type_rank (map ct_name (firstn i ts)) n 0) as [k|].
  - destruct H as [k' [-> [A B]]]. simpl. apply nth_error_map_firstn in A. destruct A as [A1 [t [A2 A3]]].
    assert (forall j' u, j' < k' -> nth_error ts j' = Some u -> ct_name u <> n) as B'.
    { intros j' u L Hu E. apply (B j' L). apply nth_error_map_firstn. split; [lia|]. eauto. }
    split.
    + intros E. inversion E; subst. split; auto. split; eauto.
    + intros [L [[u [U1 U2]] F]]. f_equal. destruct (lt_eq_lt_dec k' j) as [[X|X]|X]; auto; exfalso.
      * apply (F k' t X A2 A3).
      * apply (B' j u X U1 U2).
  - split; [discriminate|]. intros [L [[u [U1 U2]] _]]. exfalso. apply H. apply (nth_error_In _ j). apply nth_error_map_firstn. eauto.
Qed.

Lemma first_named_fun : forall ts n i j, first_named ts n i -> first_named ts n j -> i = j.
Proof.
  intros ts n i j [[t [A B]] C] [[u [A' B']] C']. destruct (lt_eq_lt_dec i j) as [[L|L]|L]; auto; exfalso.
  - apply (C' i t L A B).
  - apply (C j u L A' B').
Qed.

(** Loading a library. *)
Lemma load_library_spec : forall rest pre, match load_library (map ct_name pre) rest with
  | Some lib => List.length lib = List.length rest /\ forall i t, nth_error rest i = Some t ->
      exists lt, nth_error lib i = Some lt /\ load_type (map ct_name (firstn (S (List.length pre + i)) (pre ++ rest))) t = Some lt
  | None => exists i t, nth_error rest i = Some t /\ load_type (map ct_name (firstn (S (List.length pre + i)) (pre ++ rest))) t = None
  end.
Proof.
  induction rest as [|t rest IH]; intros pre; cbn [load_library].
  - split; auto. intros i t H. destruct i; discriminate.
  - assert (map ct_name pre ++ [ct_name t] = map ct_name (pre ++ [t])) as E1 by (rewrite map_app; auto).
    assert (pre ++ t :: rest = (pre ++ [t]) ++ rest) as E2 by (rewrite <- app_assoc; auto).
    assert (List.length (pre ++ [t]) = S (List.length pre)) as E3 by (rewrite app_length; simpl; lia).
    assert (map ct_name (firstn (S (List.length pre + 0)) (pre ++ t :: rest)) = map ct_name (pre ++ [t])) as E4.
    { rewrite Nat.add_0_r, E2. rewrite <- E3. rewrite firstn_app, Nat.sub_diag, firstn_all, app_nil_r. auto. }
    rewrite E1. specialize (IH (pre ++ [t])). destruct (load_type (map ct_name (pre ++ [t])) t) as [lt|] eqn:L.
    + destruct (load_library (map ct_name (pre ++ [t])) rest) as [lib|].
      * destruct IH as [H1 H2]. split; [simpl; auto|]. intros [|i] u H; simpl in H.
        -- inversion H; subst u. exists lt. rewrite E4. auto.
        -- destruct (H2 i u H) as [lt' [A B]]. exists lt'. split; auto. rewrite E2. rewrite E3 in B. replace (List.length pre + S i) with (S (List.length pre) + i) by lia. auto.
      * destruct IH as [i [u [A B]]]. exists (S i), u. split; auto. rewrite E2. rewrite E3 in B. replace (List.length pre + S i) with (S (List.length pre) + i) by lia. auto.
    + exists 0, t. rewrite E4. auto.
Qed.

Definition names_to (ts : list ctype) (i : nat) : list str := map ct_name (firstn (S i) ts).

Lemma load_library_lib : forall ts, match load_library [] ts with
  | Some lib => List.length lib = List.length ts /\ forall i t, nth_error ts i = Some t -> exists lt, nth_error lib i = Some lt /\ load_type (names_to ts i) t = Some lt
  | None => exists i t, nth_error ts i = Some t /\ load_type (names_to ts i) t = None
  end.
Proof. intros ts. exact (load_library_spec ts []). Qed.

Lemma names_to_length : forall ts i t, nth_error ts i = Some t -> List.length (names_to ts i) - 1 = i.
Proof.
  intros ts i t H. unfold names_to. rewrite map_length. assert (i < List.length ts) by (apply nth_error_Some; congruence). rewrite firstn_length_le; lia.
Qed.

Lemma load_type_ok : forall ts i t, nth_error ts i = Some t ->
  ((exists lt, load_type (names_to ts i) t = Some lt) <->
   mapping_ok (ct_mapping t) /\ (forall c raw, In c (ct_children t) -> mapping_in c raw -> mapping_ok raw)
   /\ (forall c n, In c (ct_children t) -> mentions c n -> exists j, j <= i /\ first_named ts n j)
   /\ (forall n m l ty, In (TComp n m l ty) (ct_children t) -> ~ first_named ts ty i)
   /\ (forall n, ct_extends t = Some n -> exists j, j < i /\ first_named ts n j)).
Proof.
  intros ts i t H. unfold load_type. rewrite (names_to_length _ _ _ H). pose proof (load_mapping_ok (ct_mapping t)) as M.
  pose proof (load_all_Some _ _ (load_tel (names_to ts i) (Some i)) (ct_children t)) as A.
  assert ((forall c, In c (ct_children t) -> exists y, load_tel (names_to ts i) (Some i) c = Some y) <->
    (forall c raw, In c (ct_children t) -> mapping_in c raw -> mapping_ok raw)
   /\ (forall c n, In c (ct_children t) -> mentions c n -> exists j, j <= i /\ first_named ts n j)
   /\ (forall n m l ty, In (TComp n m l ty) (ct_children t) -> ~ first_named ts ty i)) as A2.
  { split.
    - intros X. split; [|split].
      + intros c raw I R. apply X in I. apply load_tel_ok in I. apply I. auto.
      + intros c n I R. apply X in I. apply load_tel_ok in I. destruct I as [_ [I _]]. destruct (I n R) as [j E]. apply type_rank_first in E.
        exists j. split; [lia|tauto].
      + intros n m l ty I F. apply X in I. apply load_tel_ok in I. destruct I as [_ [_ I]]. apply (I n m l ty i eq_refl eq_refl). apply type_rank_first. split; [lia|auto].
    - intros [X1 [X2 X3]] c I. apply load_tel_ok. split; [|split].
      + intros raw R. apply (X1 c raw I R).
      + intros ty R. destruct (X2 c ty I R) as [j [L F]]. exists j. apply type_rank_first. split; [lia|auto].
      + intros n m l ty j -> E R. inversion E; subst j. apply type_rank_first in R. apply (X3 n m l ty I). tauto. }
  assert ((forall n, ct_extends t = Some n -> exists j, j < i /\ first_named ts n j) <->
    match ct_extends t with None => True | Some x => exists j, type_rank (names_to ts i) x 0 = Some j /\ j <> i end) as A3.
  { destruct (ct_extends t) as [x|].
    - split.
      + intros X. destruct (X x eq_refl) as [j [L F]]. exists j. split; [apply type_rank_first; split; [lia|auto]|lia].
      + intros [j [R N]] n E. inversion E; subst. apply type_rank_first in R. exists j. split; [lia|tauto].
    - split; auto. intros _ n E. discriminate. }
  rewrite A3. clear A3. rewrite <- M. rewrite A2 in A. destruct (load_mapping (ct_mapping t)) as [m|].
  - destruct (load_all (load_tel (names_to ts i) (Some i)) (ct_children t)) as [cs|].
    + destruct (proj1 A (ex_intro _ cs eq_refl)) as [B1 [B2 B3]]. destruct (ct_extends t) as [x|].
      * destruct (type_rank (names_to ts i) x 0) as [j|].
        -- destruct (j =? i) eqn:E; [apply Nat.eqb_eq in E|apply Nat.eqb_neq in E].
           ++ split; [intros [lt X]; discriminate|]. intros [_ [_ [_ [_ [k [X Y]]]]]]. inversion X; subst. congruence.
           ++ split; [|eauto]. intros _. split; [eauto|]. split; [auto|]. split; [auto|]. split; [auto|]. exists j. auto.
        -- split; [intros [lt X]; discriminate|]. intros [_ [_ [_ [_ [k [X Y]]]]]]. discriminate.
      * split; [|eauto]. intros _. split; [eauto|]. auto.
    + split; [intros [lt X]; discriminate|]. intros [_ [B1 [B2 [B3 _]]]]. destruct (proj2 A (conj B1 (conj B2 B3))) as [ys X]. discriminate.
  - split; [intros [lt X]; discriminate|]. intros [[m X] _]. discriminate.
Qed.

Lemma names_all : forall ts, map ct_name ts = map ct_name (firstn (List.length ts) ts).
Proof. intros ts. rewrite firstn_all. auto. Qed.

Lemma first_named_lt : forall ts n j, first_named ts n j -> j < List.length ts.
Proof. intros ts n j [[t [A _]] _]. apply nth_error_Some. congruence. Qed.

Theorem load_structure_ok : forall ts defs, (exists lib ds, load_structure ts defs = Some (lib, ds)) <-> structure_accepted ts defs.
Proof.
  intros ts defs. unfold load_structure. pose proof (load_library_lib ts) as L.
  pose proof (load_all_Some _ _ (load_tel (map ct_name ts) None) defs) as A.
  assert ((forall c, In c defs -> exists y, load_tel (map ct_name ts) None c = Some y) <->
    (forall c raw, In c defs -> mapping_in c raw -> mapping_ok raw) /\ (forall c n, In c defs -> mentions c n -> exists j, first_named ts n j)) as A2.
  { split.
    - intros X. split.
      + intros c raw I R. apply X in I. apply load_tel_ok in I. apply I. auto.
      + intros c n I R. apply X in I. apply load_tel_ok in I. destruct I as [_ [I _]]. destruct (I n R) as [j E]. rewrite names_all in E. apply type_rank_first in E.
        exists j. tauto.
    - intros [X1 X2] c I. apply load_tel_ok. split; [|split; [|intros; discriminate]].
      + intros raw R. apply (X1 c raw I R).
      + intros ty R. destruct (X2 c ty I R) as [j F]. exists j. rewrite names_all. apply type_rank_first. split; auto. eapply first_named_lt; eauto. }
  rewrite A2 in A. destruct (load_library [] ts) as [lib|].
  - destruct L as [_ L]. assert (forall i t, nth_error ts i = Some t -> exists lt, load_type (names_to ts i) t = Some lt) as L'.
    { intros i t H. destruct (L i t H) as [lt [_ E]]. eauto. }
    assert (structure_accepted ts defs <-> (forall c raw, In c defs -> mapping_in c raw -> mapping_ok raw) /\ (forall c n, In c defs -> mentions c n -> exists j, first_named ts n j)) as S.
    { split; [intros [_ X _ _ _ Y]; auto|]. intros [X Y]. constructor; auto.
      - intros t I. apply In_nth_error in I. destruct I as [i I]. destruct (proj1 (load_type_ok ts i t I) (L' i t I)) as [B1 [B2 _]]. auto.
      - intros i t c n I. destruct (proj1 (load_type_ok ts i t I) (L' i t I)) as [_ [_ [B _]]]. apply B.
      - intros i t n m l ty I. destruct (proj1 (load_type_ok ts i t I) (L' i t I)) as [_ [_ [_ [B _]]]]. apply B.
      - intros i t n I. destruct (proj1 (load_type_ok ts i t I) (L' i t I)) as [_ [_ [_ [_ B]]]]. apply B. }
    rewrite S, <- A. destruct (load_all (load_tel (map ct_name ts) None) defs) as [ds|].
    + split; eauto.
    + split; [intros [? [? X]]; discriminate|intros [? X]; discriminate].
  - split; [intros [? [? X]]; discriminate|]. intros [S1 S2 S3 S4 S5 S6]. exfalso. destruct L as [i [t [I E]]].
    destruct (proj2 (load_type_ok ts i t I)) as [lt X]; [|congruence]. destruct (S1 t (nth_error_In _ _ I)). split; auto. split; auto. split; [|split].
    + intros c n. apply (S3 i t c n I).
    + intros n m l ty. apply (S4 i t n m l ty I).
    + intros n. apply (S5 i t n I).
Qed.

(** ** Instantiation *)

Lemma inst_block : forall pop lib n m len cs, inst_one pop lib (LBlock n m len cs) =
  match load_all (inst_one pop lib) cs with
  | None => None
  | Some cs' => Some (Inst n KdBlock m (if len =? 0 then cs' else map (fun i => Inst (entry_name i) KdBlock m cs') (seq 0 len)))
  end.
Proof.
  intros. cbn [inst_one].
  assert ((fix go (cs : list ltel) : option (list inst) :=
             match cs with
             | [] => Some []
             | x :: r => match inst_one pop lib x with
                         | Some y => match go r with Some ys => Some (y :: ys) | None => None end
                         | None => None
                         end
             end) cs = load_all (inst_one pop lib) cs) as ->.
  { induction cs as [|c cs IH]; cbn [load_all]; auto. rewrite IH. auto. }
  auto.
Qed.

Lemma load_all_None : forall A B (f : A -> option B) l, load_all f l = None <-> exists x, In x l /\ f x = None.
Proof.
  intros A B f l. pose proof (load_all_spec A B f l) as H. destruct (load_all f l) as [ys|]; split; auto; try discriminate.
  intros [x [I N]]. destruct (Forall2_In_l _ _ _ _ _ _ H I) as [y [_ E]]. congruence.
Qed.

Lemma inst_one_None : forall pop lib t, inst_one pop lib t = None <-> exists j, lrefers t j /\ pop j = None.
Proof.
  intros pop lib. induction t as [n k m|n b m bits|n m len cs IH|n m len i] using ltel_ind_nested.
  - cbn [inst_one]. split; [discriminate|]. intros [j [H _]]. inversion H.
  - cbn [inst_one]. split; [discriminate|]. intros [j [H _]]. inversion H.
  - rewrite inst_block. pose proof (load_all_None _ _ (inst_one pop lib) cs) as L. rewrite Forall_forall in IH.
    assert ((exists x, In x cs /\ inst_one pop lib x = None) <-> exists j, lrefers (LBlock n m len cs) j /\ pop j = None) as E.
    { split.
      - intros [x [I N]]. apply (IH x I) in N. destruct N as [j [R P]]. exists j. split; auto. eapply lr_block; eauto.
      - intros [j [R P]]. inversion R as [|n' m' l' cs' c i' Ic Rc]; subst. exists c. split; auto. apply (IH c Ic). eauto. }
    rewrite <- E, <- L. destruct (load_all (inst_one pop lib) cs); split; auto; discriminate.
  - cbn [inst_one]. destruct (pop i) eqn:P.
    + split; [discriminate|]. intros [j [R N]]. inversion R; subst. congruence.
    + split; auto. intros _. exists i. split; auto. constructor.
Qed.

Lemma load_all_mono : forall A B (f g : A -> option B) l, (forall x y, In x l -> f x = Some y -> g x = Some y) ->
  forall ys, load_all f l = Some ys -> load_all g l = Some ys.
Proof.
  intros A B f g. induction l as [|x l IH]; intros H ys E; cbn [load_all] in *; auto.
  destruct (f x) as [y|] eqn:F; [|discriminate]. rewrite (H x y) by (simpl; auto). destruct (load_all f l) as [zs|]; [|discriminate].
  rewrite (IH (fun a b I => H a b (or_intror I)) zs eq_refl). auto.
Qed.

Lemma inst_one_mono : forall pop pop' lib, (forall j x, pop j = Some x -> pop' j = Some x) ->
  forall t y, inst_one pop lib t = Some y -> inst_one pop' lib t = Some y.
Proof.
  intros pop pop' lib H. induction t as [n k m|n b m bits|n m len cs IH|n m len i] using ltel_ind_nested; intros y E; auto.
  - rewrite inst_block in *. rewrite Forall_forall in IH. destruct (load_all (inst_one pop lib) cs) as [ys|] eqn:L; [|discriminate].
    rewrite (load_all_mono _ _ (inst_one pop lib) (inst_one pop' lib) cs (fun x y' I => IH x I y') ys L). auto.
  - cbn [inst_one] in *. destruct (pop i) as [x|] eqn:P; [|discriminate]. rewrite (H i x P). auto.
Qed.

Lemma populate_mono1 : forall lib f i x, populate f lib i = Some x -> populate (S f) lib i = Some x.
Proof.
  intros lib. induction f as [|f IH]; intros i x E; [discriminate|]. cbn [populate] in E. remember (S f) as g. cbn [populate].
  destruct (nth_error lib i) as [t|]; auto. destruct (load_all (inst_one (populate f lib) lib) (lt_children t)) as [a|] eqn:L; [|discriminate].
  rewrite (load_all_mono _ _ (inst_one (populate f lib) lib) (inst_one (populate g lib) lib) (lt_children t) (fun x' y' _ => inst_one_mono _ _ lib IH x' y') a L).
  destruct (lt_extends t) as [j|]; auto. destruct (populate f lib j) as [b|] eqn:P; [|discriminate]. rewrite (IH _ _ P). auto.
Qed.

Lemma populate_mono : forall lib f g i x, f <= g -> populate f lib i = Some x -> populate g lib i = Some x.
Proof. intros lib f g i x L. induction L; auto. intros E. apply populate_mono1. auto. Qed.

Lemma create_mono : forall lib ds f g xs, f <= g -> create_instances f lib ds = Some xs -> create_instances g lib ds = Some xs.
Proof.
  intros lib ds f g xs L. unfold create_instances. apply load_all_mono. intros x y _. apply inst_one_mono. intros j z. apply populate_mono. auto.
Qed.

(** Uses among the loaded types. *)
Definition luse (lib : list ltype) (i j : nat) : Prop :=
  exists t, nth_error lib i = Some t /\ (lt_extends t = Some j \/ exists c, In c (lt_children t) /\ lrefers c j).

Lemma populate_None : forall lib f i, populate (S f) lib i = None <-> exists j, luse lib i j /\ populate f lib j = None.
Proof.
  intros lib f i. cbn [populate]. unfold luse. destruct (nth_error lib i) as [t|].
  - pose proof (load_all_None _ _ (inst_one (populate f lib) lib) (lt_children t)) as L. destruct (load_all (inst_one (populate f lib) lib) (lt_children t)) as [a|].
    + assert (forall c j, In c (lt_children t) -> lrefers c j -> populate f lib j <> None) as N.
      { intros c j I R P. assert (@Some (list inst) a = None) as X; [|discriminate]. apply L. exists c. split; auto. apply inst_one_None. eauto. }
      destruct (lt_extends t) as [k|] eqn:EX.
      * destruct (populate f lib k) as [b|] eqn:P; split; auto.
        -- discriminate.
        -- intros [j [[t' [E [X|[c [I R]]]]] Q]]; inversion E; subst t'; [congruence|]. exfalso. eapply N; eauto.
        -- intros _. exists k. split; auto. exists t. auto.
      * split; [discriminate|]. intros [j [[t' [E [X|[c [I R]]]]] Q]]; inversion E; subst t'; [congruence|]. exfalso. eapply N; eauto.
    + split; auto. intros _. destruct (proj1 L eq_refl) as [c [I N]]. apply inst_one_None in N. destruct N as [j [R P]]. exists j. split; auto.
      exists t. split; auto. right. eauto.
  - split; [discriminate|]. intros [j [[t' [E _]] _]]. discriminate.
Qed.

Lemma luse_dec_None : forall lib f i, (forall j, luse lib i j -> populate f lib j <> None) -> exists x, populate (S f) lib i = Some x.
Proof.
  intros lib f i H. destruct (populate (S f) lib i) as [x|] eqn:E; eauto. apply populate_None in E. destruct E as [j [U P]]. exfalso. apply (H j U P).
Qed.

Lemma self_use_diverges : forall lib i, luse lib i i -> forall f, populate f lib i = None.
Proof. intros lib i U. induction f as [|f IH]; auto. apply populate_None. eauto. Qed.

Lemma reach_diverges : forall lib i j, clos_refl_trans nat (luse lib) i j -> (forall f, populate f lib j = None) -> forall f, populate f lib i = None.
Proof.
  intros lib i j C. apply clos_rt_rt1n in C. induction C as [|x y z U C IH]; auto. intros H [|f]; auto. apply populate_None. exists y. split; auto.
Qed.

Lemma no_self_terminates : forall lib, (forall i j, luse lib i j -> j <= i) ->
  forall i, (forall j, clos_refl_trans nat (luse lib) i j -> ~ luse lib j j) -> exists x, populate (S i) lib i = Some x.
Proof.
  intros lib B i. induction i as [i IH] using lt_wf_ind. intros N. apply luse_dec_None. intros j U P.
  assert (j <> i) by (intros ->; apply (N i); [apply rt_refl|auto]). pose proof (B _ _ U). destruct (IH j) as [x X]; [lia| |].
  - intros k C. apply N. apply rt_trans with j; auto. apply rt_step. auto.
  - rewrite (populate_mono lib (S j) i j x) in P by (auto; lia). discriminate.
Qed.

(** Uses among the loaded types are the uses of the description. *)
Lemma load_structure_parts : forall ts defs lib ds, load_structure ts defs = Some (lib, ds) ->
  (forall i t, nth_error ts i = Some t -> exists lt, nth_error lib i = Some lt /\ load_type (names_to ts i) t = Some lt)
  /\ List.length lib = List.length ts /\ Forall2 (fun c l => load_tel (map ct_name ts) None c = Some l) defs ds.
Proof.
  intros ts defs lib ds H. unfold load_structure in H. pose proof (load_library_lib ts) as L. destruct (load_library [] ts) as [lib'|]; [|discriminate].
  pose proof (load_all_spec _ _ (load_tel (map ct_name ts) None) defs) as A. destruct (load_all (load_tel (map ct_name ts) None) defs) as [ds'|]; [|discriminate].
  inversion H; subst. destruct L as [L1 L2]. auto.
Qed.

Lemma load_type_parts : forall names t lt, load_type names t = Some lt ->
  lt_name lt = ct_name t /\ load_mapping (ct_mapping t) = Some (lt_maps lt)
  /\ Forall2 (fun c l => load_tel names (Some (List.length names - 1)) c = Some l) (ct_children t) (lt_children lt)
  /\ match ct_extends t with None => lt_extends lt = None | Some x => exists i, type_rank names x 0 = Some i /\ lt_extends lt = Some i end.
Proof.
  intros names t lt H. unfold load_type in H. destruct (load_mapping (ct_mapping t)) as [m|]; [|discriminate].
  pose proof (load_all_spec _ _ (load_tel names (Some (List.length names - 1))) (ct_children t)) as A.
  destruct (load_all (load_tel names (Some (List.length names - 1))) (ct_children t)) as [cs|]; [|discriminate].
  destruct (ct_extends t) as [x|].
  - destruct (type_rank names x 0) as [i|]; [|discriminate]. destruct (i =? List.length names - 1); [discriminate|]. inversion H; subst. simpl. repeat (split; auto). eauto.
  - inversion H; subst. simpl. auto.
Qed.

Lemma luse_uses : forall ts defs lib ds, load_structure ts defs = Some (lib, ds) -> forall i j, luse lib i j <-> uses ts i j.
Proof.
  intros ts defs lib ds H i j. pose proof (proj1 (load_structure_ok ts defs) (ex_intro _ lib (ex_intro _ ds H))) as SA.
  destruct (load_structure_parts _ _ _ _ H) as [L [LN _]]. unfold luse, uses. split.
  - intros [lt [E U]]. destruct (nth_error ts i) as [t|] eqn:T.
    + destruct (L i t T) as [lt' [E' LT]]. rewrite E in E'. inversion E'; subst lt'. destruct (load_type_parts _ _ _ LT) as [_ [_ [C X]]]. destruct U as [U|[c [I R]]].
      * destruct (ct_extends t) as [x|] eqn:CE; [|congruence]. destruct X as [k [X1 X2]]. rewrite U in X2. inversion X2; subst k. apply type_rank_first in X1. exists t, x. tauto.
      * destruct (Forall2_In_r _ _ _ _ _ _ C I) as [c' [I' X']]. apply (load_tel_refs _ _ _ _ X') in R. destruct R as [ty [R1 R2]]. apply type_rank_first in R2.
        exists t, ty. split; auto. split; [tauto|]. right. eauto.
    + apply nth_error_None in T. assert (i < List.length lib) by (apply nth_error_Some; congruence). lia.
  - intros [t [n [T [F U]]]]. destruct (L i t T) as [lt [E LT]]. exists lt. split; auto. destruct (load_type_parts _ _ _ LT) as [_ [_ [C X]]]. destruct U as [U|[c [I R]]].
    + left. rewrite U in X. destruct X as [k [X1 X2]]. apply type_rank_first in X1. destruct X1 as [_ X1]. rewrite (first_named_fun _ _ _ _ F X1). auto.
    + right. destruct (Forall2_In_l _ _ _ _ _ _ C I) as [l [I' X']]. exists l. split; auto. apply (load_tel_refs _ _ _ _ X'). exists n. split; auto.
      apply type_rank_first. split; auto. destruct (sa_before _ _ SA i t c n T I R) as [j' [Lj F']]. rewrite (first_named_fun _ _ _ _ F F'). lia.
Qed.

Lemma uses_before : forall ts defs, structure_accepted ts defs -> forall i j, uses ts i j -> j <= i.
Proof.
  intros ts defs SA i j [t [n [T [F [U|[c [I R]]]]]]].
  - destruct (sa_extends _ _ SA i t n T U) as [j' [L F']]. rewrite (first_named_fun _ _ _ _ F F'). lia.
  - destruct (sa_before _ _ SA i t c n T I R) as [j' [L F']]. rewrite (first_named_fun _ _ _ _ F F'). lia.
Qed.

Lemma clos_iff : forall (R S : nat -> nat -> Prop), (forall i j, R i j <-> S i j) -> forall i j, clos_refl_trans nat R i j -> clos_refl_trans nat S i j.
Proof. intros R S E i j C. induction C; [apply rt_step; apply E; auto|apply rt_refl|eapply rt_trans; eauto]. Qed.

Lemma needed_refs : forall ts defs lib ds, load_structure ts defs = Some (lib, ds) -> forall j,
  needed ts defs j <-> exists d i, In d ds /\ lrefers d i /\ clos_refl_trans nat (luse lib) i j.
Proof.
  intros ts defs lib ds H j. destruct (load_structure_parts _ _ _ _ H) as [_ [_ D]]. pose proof (luse_uses _ _ _ _ H) as U. split.
  - intros [c [n [i [I [M [F C]]]]]]. destruct (Forall2_In_l _ _ _ _ _ _ D I) as [d [Id E]]. exists d, i. split; auto. split.
    + apply (load_tel_refs _ _ _ _ E). exists n. split; auto. rewrite names_all. apply type_rank_first. split; auto. eapply first_named_lt; eauto.
    + eapply clos_iff; [|exact C]. intros a b. symmetry. apply U.
  - intros [d [i [I [R C]]]]. destruct (Forall2_In_r _ _ _ _ _ _ D I) as [c [Ic E]]. apply (load_tel_refs _ _ _ _ E) in R. destruct R as [n [M T]].
    rewrite names_all in T. apply type_rank_first in T. exists c, n, i. split; auto. split; auto. split; [tauto|]. eapply clos_iff; [|exact C]. apply U.
Qed.

Theorem terminates_iff : forall ts defs lib ds, load_structure ts defs = Some (lib, ds) ->
  ((exists fuel xs, create_instances fuel lib ds = Some xs) <-> forall i, needed ts defs i -> ~ uses ts i i).
Proof.
  intros ts defs lib ds H. pose proof (proj1 (load_structure_ok ts defs) (ex_intro _ lib (ex_intro _ ds H))) as SA.
  pose proof (luse_uses _ _ _ _ H) as U. split.
  - intros [fuel [xs E]] i N S. apply (needed_refs _ _ _ _ H) in N. destruct N as [d [k [I [R C]]]]. apply U in S.
    assert (create_instances fuel lib ds = None); [|congruence]. unfold create_instances. apply load_all_None. exists d. split; auto. apply inst_one_None. exists k. split; auto.
    apply (reach_diverges lib k i C). apply self_use_diverges. auto.
  - intros N. exists (S (List.length ts)). destruct (create_instances (S (List.length ts)) lib ds) as [xs|] eqn:E; eauto. exfalso.
    unfold create_instances in E. apply load_all_None in E. destruct E as [d [I E]]. apply inst_one_None in E. destruct E as [i [R P]].
    destruct (no_self_terminates lib) with (i := i) as [x X].
    + intros a b Uab. apply U in Uab. eapply uses_before; eauto.
    + intros j C Uj. apply (N j); [|apply U; auto]. apply (needed_refs _ _ _ _ H). eauto.
    + assert (i < List.length ts).
      { assert (needed ts defs i) as X2 by (apply (needed_refs _ _ _ _ H); exists d, i; repeat split; auto; apply rt_refl).
        destruct X2 as [c [n [k [_ [_ [F C]]]]]]. pose proof (first_named_lt _ _ _ F). assert (forall a b, clos_refl_trans nat (uses ts) a b -> b <= a) as CB.
        { intros a b Cab. induction Cab; auto; [eapply uses_before; eauto|lia]. }
        pose proof (CB _ _ C). lia. }
      rewrite (populate_mono lib (S i) (S (List.length ts)) i x) in P by (auto; lia). discriminate.
Qed.

(** ** The elements created *)

Lemma digits_loop_head : forall fuel b n acc, (2 <= b <= 16)%Z -> (0 < n < 2 ^ Z.of_nat fuel)%Z ->
  hd_error (digits_loop fuel b n acc) <> Some "0"%char.
Proof.
  induction fuel as [|fuel IH]; intros b n acc Hb Hn; [simpl in Hn; lia|]. cbn [digits_loop]. destruct (Z.ltb_spec n b).
  - simpl. intros E. inversion E as [E']. pose proof (digit_char_val n) as V. rewrite E' in V.
    assert (digit_val "0"%char = Some 0%Z) by reflexivity. rewrite V in H0 by lia. inversion H0. lia.
  - apply IH; auto. split.
    + assert (1 <= n / b)%Z by (apply Z.div_le_lower_bound; lia). lia.
    + rewrite Nat2Z.inj_succ, Z.pow_succ_r in Hn by lia. apply Z.div_lt_upper_bound; [lia|]. nia.
Qed.

Lemma entry_name_decimal : forall i, decimal (entry_name i) i.
Proof.
  intros i. unfold decimal, entry_name, print_dec. destruct (Z.ltb_spec (Z.of_nat i) 0); [lia|].
  destruct (print_base_spec 10 (Z.of_nat i)) as [ds [H1 [H2 [H3 H4]]]]; try lia. exists ds. split; auto. split.
  { clear - H1. induction H1; constructor; auto. apply good10; auto. }
  split; auto. intros N. unfold print_base. apply digits_loop_head; [lia|]. split; [lia|].
  rewrite Nat2Z.inj_succ, Z2Nat.id by (apply Z.log2_nonneg). apply Z.log2_spec. lia.
Qed.

Lemma decimal_int : forall s n, decimal s n -> int_text s (Z.of_nat n).
Proof. intros s n [ds [A [B [<- _]]]]. apply it_dec; auto. Qed.

Lemma decimal_inj : forall s i j, decimal s i -> decimal s j -> i = j.
Proof. intros s i j A B. apply decimal_int in A, B. pose proof (int_text_unique _ _ _ A B). lia. Qed.

Lemma decimal_name : forall s n, decimal s n -> s <> [] /\ ~ In "/"%char s.
Proof.
  intros s n [ds [A [B _]]]. split; [intros ->; inversion B; congruence|]. intros I. destruct (Forall2_In_l _ _ _ _ _ _ B I) as [d [_ [D1 D2]]].
  assert (bval "/"%char = 47%Z) by reflexivity. lia.
Qed.

Lemma load_mapping_maps : forall raw m, load_mapping raw = Some m -> maps_of raw m.
Proof.
  intros raw m. unfold load_mapping, maps_of. destruct raw as [|c r]; [intros E; inversion E; auto|]. intros E. right. split; [discriminate|].
  unfold md_init in E. pose proof (md_add_all_spec (split (c :: r) (lit ",") true) [] (NoDup_nil _)) as H.
  destruct (md_add_all (split (c :: r) (lit ",") true) []) as [d|]; [|discriminate]. rewrite app_nil_r in H. destruct H as [H1 [H2 H3]]. inversion E; subst.
  destruct (written_items (c :: r)) as [kvs W]. rewrite <- (written_unique _ _ W) in *. exists d, kvs. auto.
Qed.

Lemma maps_of_distinct : forall raw m, maps_of raw m -> distinct_keys m.
Proof.
  intros raw m [[_ ->]|[_ [d [kvs [-> [W [N P]]]]]]]; [intros d []|]. intros d' [<-|[]].
  exact (Permutation_NoDup (Permutation_map fst (Permutation_sym P)) N).
Qed.

Lemma type_maps_data : forall ts defs lib ds, load_structure ts defs = Some (lib, ds) ->
  forall f i, i < f -> i < List.length ts -> type_data ts i (type_maps lib f i).
Proof.
  intros ts defs lib ds H. pose proof (proj1 (load_structure_ok ts defs) (ex_intro _ lib (ex_intro _ ds H))) as SA.
  destruct (load_structure_parts _ _ _ _ H) as [L _]. induction f as [|f IH]; intros i Lt Li; [lia|]. cbn [type_maps].
  destruct (nth_error ts i) as [t|] eqn:T; [|apply nth_error_None in T; lia]. destruct (L i t T) as [lt [E LT]]. rewrite E.
  destruct (load_type_parts _ _ _ LT) as [_ [M [_ X]]]. apply load_mapping_maps in M. destruct (ct_extends t) as [x|] eqn:CE.
  - destruct X as [j [X1 X2]]. apply type_rank_first in X1. destruct X1 as [_ F]. rewrite X2. destruct (sa_extends _ _ SA i t x T CE) as [j' [Lj F']].
    rewrite (first_named_fun _ _ _ _ F' F) in Lj. apply (td_extends ts i t x j); auto. apply IH; [lia|]. eapply first_named_lt; eauto.
  - rewrite X. rewrite app_nil_r. eapply td_alone; eauto.
Qed.

Lemma entries_made : forall k m xs len, entries k m xs len (map (fun i => Inst (entry_name i) k m xs) (seq 0 len)).
Proof.
  intros k m xs len. split; [rewrite map_length, seq_length; auto|]. intros i e E. rewrite nth_error_map in E.
  destruct (nth_error (seq 0 len) i) as [j|] eqn:N; [|discriminate]. inversion E; subst e. assert (i < len) by (rewrite <- (seq_length len 0); apply nth_error_Some; congruence).
  assert (j = i) as -> by (rewrite (nth_error_nth' _ 0) in N by (rewrite seq_length; auto); rewrite seq_nth in N by auto; inversion N; auto).
  exists (entry_name i). split; auto. apply entry_name_decimal.
Qed.

Lemma inst_one_creates : forall ts defs lib ds, load_structure ts defs = Some (lib, ds) ->
  forall pop, (forall i xs, i < List.length ts -> pop i = Some xs -> content ts i xs) ->
  forall names, (forall n j, type_rank names n 0 = Some j -> first_named ts n j) ->
  forall t parent l x, load_tel names parent t = Some l -> inst_one pop lib l = Some x -> creates ts t x.
Proof.
  intros ts defs lib ds H pop HP names HN. induction t as [n k raw|n b raw bits|n raw len cs IH|n raw len ty] using tel_ind_nested; intros parent l x E I.
  - cbn [load_tel] in E. destruct (load_mapping raw) as [m|] eqn:M; inversion E; subst. cbn [inst_one] in I. inversion I; subst. constructor. apply load_mapping_maps; auto.
  - cbn [load_tel] in E. destruct (load_mapping raw) as [m|] eqn:M; inversion E; subst. cbn [inst_one] in I. inversion I; subst. constructor. apply load_mapping_maps; auto.
  - rewrite load_block in E. destruct (load_mapping raw) as [m|] eqn:M; [|discriminate]. pose proof (load_all_spec _ _ (load_tel names None) cs) as A.
    destruct (load_all (load_tel names None) cs) as [ls|]; [|discriminate]. inversion E; subst l. rewrite inst_block in I.
    pose proof (load_all_spec _ _ (inst_one pop lib) ls) as B. destruct (load_all (inst_one pop lib) ls) as [xs|]; [|discriminate]. apply load_mapping_maps in M.
    assert (Forall2 (creates ts) cs xs) as F.
    { clear - IH A B. revert xs B. induction A as [|c l cs ls El A IHA]; intros xs B; inversion B; subst; constructor.
      - inversion IH; subst. eauto.
      - inversion IH; subst. auto. }
    destruct (len =? 0) eqn:Z; [apply Nat.eqb_eq in Z; subst len|apply Nat.eqb_neq in Z]; inversion I; subst x.
    + apply cr_block; auto.
    + eapply cr_blocks; eauto. apply entries_made.
  - cbn [load_tel] in E. destruct (type_rank names ty 0) as [i|] eqn:R; [|discriminate].
    destruct (match parent with Some j => i =? j | None => false end); [discriminate|]. destruct (load_mapping raw) as [m|] eqn:M; [|discriminate]. inversion E; subst l.
    cbn [inst_one] in I. destruct (pop i) as [xs|] eqn:P; [|discriminate]. apply load_mapping_maps in M. apply HN in R. pose proof (first_named_lt _ _ _ R) as Li.
    pose proof (type_maps_data _ _ _ _ H (S i) i (Nat.lt_succ_diag_r i) Li) as TD. apply HP in P; auto.
    destruct (len =? 0) eqn:Z; [apply Nat.eqb_eq in Z; subst len|apply Nat.eqb_neq in Z]; inversion I; subst x.
    + eapply cr_comp; eauto.
    + eapply cr_comps; eauto. apply entries_made.
Qed.

Lemma inst_all_creates : forall ts names parent pop lib cs ls xs,
  (forall t l x, load_tel names parent t = Some l -> inst_one pop lib l = Some x -> creates ts t x) ->
  Forall2 (fun c l => load_tel names parent c = Some l) cs ls -> Forall2 (fun c l => inst_one pop lib c = Some l) ls xs -> Forall2 (creates ts) cs xs.
Proof.
  intros ts names parent pop lib cs ls xs H A. revert xs. induction A as [|c l cs ls El A IHA]; intros xs B; inversion B; subst; constructor; eauto.
Qed.

Lemma populate_content : forall ts defs lib ds, load_structure ts defs = Some (lib, ds) ->
  forall f i xs, i < List.length ts -> populate f lib i = Some xs -> content ts i xs.
Proof.
  intros ts defs lib ds H. destruct (load_structure_parts _ _ _ _ H) as [L _]. induction f as [|f IH]; intros i xs Li P; [discriminate|]. cbn [populate] in P.
  destruct (nth_error ts i) as [t|] eqn:T; [|apply nth_error_None in T; lia]. destruct (L i t T) as [lt [E LT]]. rewrite E in P.
  destruct (load_type_parts _ _ _ LT) as [_ [_ [C X]]]. pose proof (load_all_spec _ _ (inst_one (populate f lib) lib) (lt_children lt)) as B.
  destruct (load_all (inst_one (populate f lib) lib) (lt_children lt)) as [a|]; [|discriminate].
  assert (Forall2 (creates ts) (ct_children t) a) as F.
  { eapply inst_all_creates; [|exact C|exact B]. intros t' l x. eapply inst_one_creates; eauto. intros n j R. apply type_rank_first in R. tauto. }
  destruct (ct_extends t) as [x|] eqn:CE.
  - destruct X as [j [X1 X2]]. rewrite X2 in P. apply type_rank_first in X1. destruct X1 as [_ X1]. destruct (populate f lib j) as [b|] eqn:Q; [|discriminate]. inversion P; subst.
    apply (co_extends ts i t x j); auto. apply IH; auto. eapply first_named_lt; eauto.
  - rewrite X in P. inversion P; subst. eapply co_alone; eauto.
Qed.

Theorem instances_created : forall ts defs lib ds fuel xs, load_structure ts defs = Some (lib, ds) -> create_instances fuel lib ds = Some xs ->
  Forall2 (creates ts) defs xs.
Proof.
  intros ts defs lib ds fuel xs H C. destruct (load_structure_parts _ _ _ _ H) as [_ [_ D]]. unfold create_instances in C.
  pose proof (load_all_spec _ _ (inst_one (populate fuel lib) lib) ds) as B. rewrite C in B. eapply inst_all_creates; [|exact D|exact B].
  intros t l x. eapply inst_one_creates; eauto.
  - intros i ys Li. eapply populate_content; eauto.
  - intros n j R. rewrite names_all in R. apply type_rank_first in R. tauto.
Qed.

(** ** Induction on what is created *)

Section CreatesInd.
  Context (ts : list ctype) (P : tel -> inst -> Prop) (Q : nat -> list inst -> Prop).
  Context (P_leaf : forall n k raw m, maps_of raw m -> P (TLeaf n k raw) (Inst n k m [])).
  Context (P_bits : forall n b raw m bits, maps_of raw m ->
    P (TBits n b raw bits) (Inst n (KdBitBlock b) m (map (fun nb => Inst (fst nb) (KdBit (snd nb)) [] []) bits))).
  Context (P_block : forall n raw m cs xs, maps_of raw m -> Forall2 (creates ts) cs xs -> Forall2 P cs xs -> P (TBlock n raw 0 cs) (Inst n KdBlock m xs)).
  Context (P_blocks : forall n raw m len cs xs es, len <> 0 -> maps_of raw m -> Forall2 (creates ts) cs xs -> Forall2 P cs xs -> entries KdBlock m xs len es ->
    P (TBlock n raw len cs) (Inst n KdBlock m es)).
  Context (P_comp : forall n raw m ty i ms xs, maps_of raw m -> first_named ts ty i -> type_data ts i ms -> content ts i xs -> Q i xs ->
    P (TComp n raw 0 ty) (Inst n KdComponent (m ++ ms) xs)).
  Context (P_comps : forall n raw m len ty i ms xs es, len <> 0 -> maps_of raw m -> first_named ts ty i -> type_data ts i ms -> content ts i xs -> Q i xs ->
    entries KdComponent (m ++ ms) xs len es -> P (TComp n raw len ty) (Inst n KdComponent (m ++ ms) es)).
  Context (Q_alone : forall i t xs, nth_error ts i = Some t -> ct_extends t = None -> Forall2 (creates ts) (ct_children t) xs -> Forall2 P (ct_children t) xs -> Q i xs).
  Context (Q_extends : forall i t n j xs ys, nth_error ts i = Some t -> ct_extends t = Some n -> first_named ts n j ->
    Forall2 (creates ts) (ct_children t) xs -> Forall2 P (ct_children t) xs -> content ts j ys -> Q j ys -> Q i (xs ++ ys)).

  Fixpoint creates_P t x (H : creates ts t x) {struct H} : P t x
  with content_Q i xs (H : content ts i xs) {struct H} : Q i xs.
  Proof.
    - destruct H as [n k raw m M|n b raw m bits M|n raw m cs xs M F|n raw m len cs xs es N M F E|n raw m ty i ms xs M F T C|n raw m len ty i ms xs es N M F T C E].
      + apply P_leaf; auto.
      + apply P_bits; auto.
      + apply P_block; auto. induction F as [|a b l l' Hab F IHF]; constructor; [exact (creates_P a b Hab)|exact IHF].
      + apply (P_blocks n raw m len cs xs); auto. clear E. induction F as [|a b l l' Hab F IHF]; constructor; [exact (creates_P a b Hab)|exact IHF].
      + apply (P_comp n raw m ty i); auto; exact (content_Q i xs C).
      + apply (P_comps n raw m len ty i ms xs); auto; exact (content_Q i xs C).
    - destruct H as [i t xs T CE F|i t n j xs ys T CE FN F C].
      + apply (Q_alone i t xs); auto. clear T CE. induction F as [|a b l l' Hab F IHF]; constructor; [exact (creates_P a b Hab)|exact IHF].
      + apply (Q_extends i t n j xs ys); auto. clear T CE. induction F as [|a b l l' Hab F IHF]; constructor; [exact (creates_P a b Hab)|exact IHF].
  Defined.
End CreatesInd.

(** ** Keys and names of what is created *)

Lemma tree_keys_node : forall n k m cs, distinct_keys m -> (forall c, In c cs -> tree_keys c) -> tree_keys (Inst n k m cs).
Proof.
  intros n k m cs D H p x E. destruct p as [|i p]; simpl in E; [inversion E; subst; auto|].
  destruct (nth_error cs i) as [c|] eqn:N; [|discriminate]. apply nth_error_In in N. apply (H c N p x E).
Qed.

Lemma distinct_app : forall a b, distinct_keys a -> distinct_keys b -> distinct_keys (a ++ b).
Proof. intros a b A B d I. apply in_app_or in I. destruct I; auto. Qed.

Lemma type_data_distinct : forall ts i ms, type_data ts i ms -> distinct_keys ms.
Proof. intros ts i ms H. induction H; [eapply maps_of_distinct; eauto|]. apply distinct_app; auto. eapply maps_of_distinct; eauto. Qed.

Lemma entries_In : forall k m xs len es e, entries k m xs len es -> In e es -> exists s i, decimal s i /\ e = Inst s k m xs.
Proof. intros k m xs len es e [_ H] I. apply In_nth_error in I. destruct I as [i I]. destruct (H i e I) as [s [A B]]. eauto. Qed.

Lemma creates_keys : forall ts t x, creates ts t x -> tree_keys x.
Proof.
  intros ts. apply (creates_P ts (fun _ x => tree_keys x) (fun _ xs => forall x, In x xs -> tree_keys x)).
  - intros n k raw m M. apply tree_keys_node; [eapply maps_of_distinct; eauto|intros c []].
  - intros n b raw m bits M. apply tree_keys_node; [eapply maps_of_distinct; eauto|]. intros c I. apply in_map_iff in I. destruct I as [nb [<- _]].
    apply tree_keys_node; [intros d []|intros c []].
  - intros n raw m cs xs M _ F. apply tree_keys_node; [eapply maps_of_distinct; eauto|]. intros c I. destruct (Forall2_In_r _ _ _ _ _ _ F I) as [y [_ Y]]. auto.
  - intros n raw m len cs xs es _ M _ F E. pose proof (maps_of_distinct _ _ M). apply tree_keys_node; auto. intros c I.
    destruct (entries_In _ _ _ _ _ _ E I) as [s [i [_ ->]]]. apply tree_keys_node; auto. intros c' I'. destruct (Forall2_In_r _ _ _ _ _ _ F I') as [y [_ Y]]. auto.
  - intros n raw m ty i ms xs M _ T _ F. pose proof (distinct_app _ _ (maps_of_distinct _ _ M) (type_data_distinct _ _ _ T)). apply tree_keys_node; auto.
  - intros n raw m len ty i ms xs es _ M _ T _ F E. pose proof (distinct_app _ _ (maps_of_distinct _ _ M) (type_data_distinct _ _ _ T)). apply tree_keys_node; auto. intros c I.
    destruct (entries_In _ _ _ _ _ _ E I) as [s [j [_ ->]]]. apply tree_keys_node; auto.
  - intros i t xs _ _ _ F x I. destruct (Forall2_In_r _ _ _ _ _ _ F I) as [y [_ Y]]. auto.
  - intros i t n j xs ys _ _ _ _ F _ G x I. apply in_app_or in I. destruct I as [I|I]; auto. destruct (Forall2_In_r _ _ _ _ _ _ F I) as [y [_ Y]]. auto.
Qed.

Definition good_name (n : str) : Prop := n <> [] /\ ~ In "/"%char n.
Definition names_tree (x : inst) : Prop := forall p y, inst_at x p = Some y -> good_name (in_name y) /\ NoDup (map in_name (in_children y)).

Lemma names_node : forall n k m cs, good_name n -> NoDup (map in_name cs) -> (forall c, In c cs -> names_tree c) -> names_tree (Inst n k m cs).
Proof.
  intros n k m cs G N H p y E. destruct p as [|i p]; simpl in E; [inversion E; subst; auto|].
  destruct (nth_error cs i) as [c|] eqn:X; [|discriminate]. apply nth_error_In in X. apply (H c X p y E).
Qed.

Lemma entries_NoDup : forall k m xs len es, entries k m xs len es -> NoDup (map in_name es).
Proof.
  intros k m xs len es [_ H]. apply NoDup_nth_error. intros i j L E. rewrite map_length in L. rewrite !nth_error_map in E.
  destruct (nth_error es i) as [x|] eqn:X; [|apply nth_error_None in X; lia]. destruct (nth_error es j) as [y|] eqn:Y; [|discriminate].
  destruct (H i x X) as [s [S1 ->]]. destruct (H j y Y) as [s' [S2 ->]]. simpl in E. inversion E; subst. eapply decimal_inj; eauto.
Qed.

Lemma creates_name : forall ts t x, creates ts t x -> in_name x = tel_name t.
Proof. intros ts t x H. destruct H; reflexivity. Qed.

Lemma creates_names_map : forall ts cs xs, Forall2 (creates ts) cs xs -> map in_name xs = map tel_name cs.
Proof. intros ts cs xs F. induction F; simpl; auto. f_equal; auto. eapply creates_name; eauto. Qed.

Lemma content_names : forall ts i xs, content ts i xs -> created_names ts i (map in_name xs).
Proof.
  intros ts i xs H. induction H as [i t xs T CE F|i t n j xs ys T CE FN F C IH].
  - rewrite (creates_names_map _ _ _ F). apply cn_alone; auto.
  - rewrite map_app, (creates_names_map _ _ _ F). eapply cn_extends; eauto.
Qed.

Lemma creates_names : forall ts defs, names_accepted ts defs -> forall t x, creates ts t x -> block_names_ok t -> names_tree x.
Proof.
  intros ts defs [_ [_ [HT HN]]].
  apply (creates_P ts (fun t x => block_names_ok t -> names_tree x) (fun _ xs => forall x, In x xs -> names_tree x)).
  - intros n k raw m M B. inversion B; subst. apply names_node; [split; auto|constructor|intros c []].
  - intros n b raw m bits M B. inversion B as [|n' b' m' bits' N1 N2 N3 N4| |]; subst. apply names_node; [split; auto| |].
    + rewrite map_map. simpl. auto.
    + intros c I. apply in_map_iff in I. destruct I as [nb [<- I]]. destruct (N4 nb I). apply names_node; [split; auto|constructor|intros c []].
  - intros n raw m cs xs M C F B. inversion B as [| |n' m' l' cs' N1 N2 N3 N4|]; subst. apply names_node; [split; auto| |].
    + rewrite (creates_names_map _ _ _ C). auto.
    + intros c I. destruct (Forall2_In_r _ _ _ _ _ _ F I) as [y [Iy Y]]. auto.
  - intros n raw m len cs xs es L M C F E B. inversion B as [| |n' m' l' cs' N1 N2 N3 N4|]; subst. apply names_node; [split; auto|eapply entries_NoDup; eauto|].
    intros c I. destruct (entries_In _ _ _ _ _ _ E I) as [s [i [D ->]]]. apply names_node; [apply (decimal_name _ _ D)|rewrite (creates_names_map _ _ _ C); auto|].
    intros c' I'. destruct (Forall2_In_r _ _ _ _ _ _ F I') as [y [Iy Y]]. auto.
  - intros n raw m ty i ms xs M _ _ C F B. inversion B; subst. apply names_node; [split; auto| |auto]. apply (HN i). apply content_names. auto.
  - intros n raw m len ty i ms xs es L M _ _ C F E B. inversion B; subst. apply names_node; [split; auto|eapply entries_NoDup; eauto|].
    intros c I. destruct (entries_In _ _ _ _ _ _ E I) as [s [j [D ->]]]. apply names_node; [apply (decimal_name _ _ D)| |auto]. apply (HN i). apply content_names. auto.
  - intros i t xs T _ _ F x I. destruct (Forall2_In_r _ _ _ _ _ _ F I) as [y [Iy Y]]. apply Y. apply (HT t); auto. eapply nth_error_In; eauto.
  - intros i t n j xs ys T _ _ _ F _ G x I. apply in_app_or in I. destruct I as [I|I]; auto. destruct (Forall2_In_r _ _ _ _ _ _ F I) as [y [Iy Y]].
    apply Y. apply (HT t); auto. eapply nth_error_In; eauto.
Qed.

Lemma forget_at : forall p x, elem_at (forget x) p = match inst_at x p with Some y => Some (forget y) | None => None end.
Proof.
  induction p as [|i p IH]; intros [n k m cs]; cbn; auto. rewrite nth_error_map. destruct (nth_error cs i) as [c|]; cbn; auto.
Qed.

Lemma forget_name : forall x, e_name (forget x) = in_name x.
Proof. intros [n k m cs]. reflexivity. Qed.
Lemma forget_children : forall x, e_children (forget x) = map forget (in_children x).
Proof. intros [n k m cs]. reflexivity. Qed.

Lemma path_name_named : forall e, e_name e <> [] -> path_name e = e_name e.
Proof. intros [n k cs] H. unfold path_name. simpl in *. destruct n; [congruence|auto]. Qed.

Lemma siblings_apart : forall xs, NoDup (map in_name xs) -> (forall x, In x xs -> in_name x <> []) ->
  forall i j c d, nth_error (map forget xs) i = Some c -> nth_error (map forget xs) j = Some d -> path_name c = path_name d -> i = j.
Proof.
  intros xs N G i j c d Hi Hj E. rewrite nth_error_map in *. destruct (nth_error xs i) as [x|] eqn:X; [|discriminate]. destruct (nth_error xs j) as [y|] eqn:Y; [|discriminate].
  inversion Hi; inversion Hj; subst. assert (forall z, In z xs -> path_name (forget z) = in_name z) as PN.
  { intros z Iz. rewrite path_name_named; rewrite forget_name; auto. }
  rewrite !PN in E by (eapply nth_error_In; eauto). apply (proj1 (NoDup_nth_error _) N); [rewrite map_length; apply nth_error_Some; congruence|].
  rewrite !nth_error_map, X, Y. simpl. congruence.
Qed.

Lemma subsystem_names : forall xs, NoDup (map in_name xs) -> (forall x, In x xs -> names_tree x) -> forall n p e, n <> [] -> ~ In "/"%char n ->
  elem_at (subsystem_elem (n, xs)) p = Some e -> ~ In "/"%char (path_name e) /\ forall i j c d, nth_error (e_children e) i = Some c ->
        nth_error (e_children e) j = Some d -> path_name c = path_name d -> i = j.
Proof.
  intros xs N T n p e Hn Hs E. destruct p as [|k p]; cbn in E.
  - inversion E; subst. split; [rewrite path_name_named; auto|]. apply siblings_apart; auto. intros x I. apply (T x I [] x eq_refl).
  - rewrite nth_error_map in E. destruct (nth_error xs k) as [x|] eqn:X; [|discriminate]. cbn in E. rewrite forget_at in E. destruct (inst_at x p) as [y|] eqn:Y; [|discriminate].
    inversion E; subst. apply nth_error_In in X. destruct (T x X p y Y) as [[G1 G2] G3]. rewrite path_name_named; rewrite forget_name; auto. split; auto.
    rewrite forget_children. apply siblings_apart; auto. intros z I. apply In_nth_error in I. destruct I as [m I].
    assert (inst_at x (p ++ [m]) = Some z) as Z.
    { clear - Y I. revert x Y. induction p as [|a p IH]; intros x Y; simpl in *; [inversion Y; subst; rewrite I; auto|]. destruct (nth_error (in_children x) a); [auto|discriminate]. }
    apply (T x X _ z Z).
Qed.

(** ** Clashing names *)

Definition clash (xs : list inst) : Prop := exists a b x y, a <> b /\ nth_error xs a = Some x /\ nth_error xs b = Some y /\ in_name x = in_name y /\ in_name x <> [].
Definition clash_under (x : inst) : Prop := exists p y, inst_at x p = Some y /\ clash (in_children y).
Definition clash_in (xs : list inst) : Prop := clash xs \/ exists x, In x xs /\ clash_under x.

Lemma clash_app : forall xs ys, clash_in ys -> clash_in (xs ++ ys).
Proof.
  intros xs ys [[a [b [x [y [N [A [B C]]]]]]]|[x [I H]]].
  - left. exists (List.length xs + a), (List.length xs + b), x, y. split; [lia|]. rewrite !nth_error_app2 by lia.
    replace (List.length xs + a - List.length xs) with a by lia. replace (List.length xs + b - List.length xs) with b by lia. auto.
  - right. exists x. split; auto. apply in_or_app. auto.
Qed.

Lemma clash_app_l : forall xs ys x, In x xs -> clash_under x -> clash_in (xs ++ ys).
Proof. intros xs ys x I H. right. exists x. split; auto. apply in_or_app. auto. Qed.

Lemma clash_node : forall n k m xs, clash_in xs -> clash_under (Inst n k m xs).
Proof.
  intros n k m xs [H|[x [I [p [y [E H]]]]]].
  - exists [], (Inst n k m xs). auto.
  - apply In_nth_error in I. destruct I as [i I]. exists (i :: p), y. split; auto. simpl. rewrite I. auto.
Qed.

Lemma clash_entries : forall n k k' m m' xs len es, len <> 0 -> entries k m xs len es -> clash_in xs -> clash_under (Inst n k' m' es).
Proof.
  intros n k k' m m' xs len es L [E1 E2] H. destruct es as [|e es]; [simpl in E1; lia|]. destruct (E2 0 e eq_refl) as [s [_ ->]]. apply clash_node. right. exists (Inst s k m xs).
  split; [left; auto|]. apply clash_node. auto.
Qed.

Lemma created_names_fun : forall ts i ns, created_names ts i ns -> forall ns', created_names ts i ns' -> ns = ns'.
Proof.
  intros ts i ns H. induction H as [i t T CE|i t n j ns T CE FN C IH]; intros ns' H'; inversion H' as [i' t' T' CE'|i' t' n' j' ns'' T' CE' FN' C']; subst;
    rewrite T in T'; inversion T'; subst; auto; try congruence.
  rewrite CE in CE'. inversion CE'; subst. rewrite (first_named_fun _ _ _ _ FN' FN) in *. f_equal. auto.
Qed.

Lemma mentions_clash : forall ts j, (forall xs, content ts j xs -> clash_in xs) ->
  forall c n, mentions c n -> first_named ts n j -> forall x, creates ts c x -> clash_under x.
Proof.
  intros ts j D c n M F. induction M as [n m l ty|n m l cs c ty I M IH]; intros x C.
  - inversion C as [| | | |n' raw' m' ty' i' ms' xs' X1 X2 X3 X4|n' raw' m' len' ty' i' ms' xs' es' X0 X1 X2 X3 X4 X5]; subst; rewrite (first_named_fun _ _ _ _ X2 F) in *.
    + apply clash_node. apply D. auto.
    + eapply clash_entries; eauto.
  - inversion C as [| |n' raw' m' cs' xs' X1 X2|n' raw' m' len' cs' xs' es' X0 X1 X2 X3| |]; subst.
    + destruct (Forall2_In_l _ _ _ _ _ _ X2 I) as [y [Iy Y]]. apply clash_node. right. eauto.
    + destruct (Forall2_In_l _ _ _ _ _ _ X2 I) as [y [Iy Y]]. eapply clash_entries; eauto. right. eauto.
Qed.

Lemma uses_clash : forall ts i j, uses ts i j -> (forall xs, content ts j xs -> clash_in xs) -> forall xs, content ts i xs -> clash_in xs.
Proof.
  intros ts i j [t [n [T [F U]]]] D xs C. inversion C as [i' t' xs' T' CE FF|i' t' n' j' xs' ys T' CE FN FF C']; subst; rewrite T in T'; inversion T'; subst t'.
  - destruct U as [U|[c [I M]]]; [congruence|]. destruct (Forall2_In_l _ _ _ _ _ _ FF I) as [y [Iy Y]]. right. exists y. split; auto. eapply mentions_clash; eauto.
  - destruct U as [U|[c [I M]]].
    + rewrite CE in U. inversion U; subst n'. rewrite (first_named_fun _ _ _ _ FN F) in *. apply clash_app. auto.
    + destruct (Forall2_In_l _ _ _ _ _ _ FF I) as [y [Iy Y]]. eapply clash_app_l; eauto. eapply mentions_clash; eauto.
Qed.

Lemma needed_clash : forall ts defs i ns a b n xs, needed ts defs i -> created_names ts i ns -> a <> b -> nth_error ns a = Some n -> nth_error ns b = Some n -> n <> [] ->
  Forall2 (creates ts) defs xs -> clash_in xs.
Proof.
  intros ts defs i ns a b n xs [c [m [k [I [M [F C]]]]]] CN N A B E X.
  assert (forall ys, content ts i ys -> clash_in ys) as D.
  { intros ys Y. left. pose proof (created_names_fun _ _ _ CN _ (content_names _ _ _ Y)). subst ns. rewrite nth_error_map in A, B.
    destruct (nth_error ys a) as [x|] eqn:XA; [|discriminate]. destruct (nth_error ys b) as [y|] eqn:XB; [|discriminate]. inversion A; inversion B; subst.
    exists a, b, x, y. repeat split; auto. }
  assert (forall ys, content ts k ys -> clash_in ys) as D'.
  { clear - C D. apply clos_rt_rt1n in C. induction C as [|x y z U C IH]; auto. eapply uses_clash; eauto. }
  destruct (Forall2_In_l _ _ _ _ _ _ X I) as [y [Iy Y]]. right. exists y. split; auto. eapply mentions_clash; eauto.
Qed.

Lemma path_in_siblings : forall p e x a b c d, elem_at e p = Some x -> nth_error (e_children x) a = Some c -> nth_error (e_children x) b = Some d ->
  path_name c = path_name d -> path_in e (p ++ [a]) = path_in e (p ++ [b]).
Proof.
  induction p as [|i p IH]; intros e x a b c d E A B P.
  - simpl in E. inversion E; subst. cbn [app path_in]. rewrite A, B. cbn [path_in]. rewrite P. auto.
  - cbn [app path_in]. simpl in E. destruct (nth_error (e_children e) i) as [f|]; [|discriminate]. rewrite (IH f x a b c d); auto.
Qed.

Lemma clash_paths : forall n xs, clash_in xs -> exists p q e f, p <> q /\ elem_at (subsystem_elem (n, xs)) p = Some e /\ elem_at (subsystem_elem (n, xs)) q = Some f
  /\ path_in (subsystem_elem (n, xs)) p = path_in (subsystem_elem (n, xs)) q.
Proof.
  intros n xs H. assert (clash_under (Inst n KdSubsystem [] xs)) as U by (apply clash_node; auto). destruct U as [p [y [E [a [b [u [v [N [A [B [NM NE]]]]]]]]]]].
  change (subsystem_elem (n, xs)) with (forget (Inst n KdSubsystem [] xs)). set (r := Inst n KdSubsystem [] xs) in *.
  assert (elem_at (forget r) p = Some (forget y)) as EY by (rewrite forget_at, E; auto).
  assert (nth_error (e_children (forget y)) a = Some (forget u)) as EA by (rewrite forget_children, nth_error_map, A; auto).
  assert (nth_error (e_children (forget y)) b = Some (forget v)) as EB by (rewrite forget_children, nth_error_map, B; auto).
  assert (forall e q x i c, elem_at e q = Some x -> nth_error (e_children x) i = Some c -> elem_at e (q ++ [i]) = Some c) as AT.
  { clear. intros e q. revert e. induction q as [|j q IH]; intros e x i c E I; simpl in *; [inversion E; subst; rewrite I; auto|].
    destruct (nth_error (e_children e) j); [eauto|discriminate]. }
  exists (p ++ [a]), (p ++ [b]), (forget u), (forget v). split; [intros X; apply app_inj_tail in X; destruct X; auto|]. split; [eapply AT; eauto|]. split; [eapply AT; eauto|].
  eapply path_in_siblings; eauto. rewrite !path_name_named; rewrite !forget_name; congruence.
Qed.

(** ** Arrays with a context key *)

Lemma array_entry : forall ts t x, creates ts t x -> is_array t -> exists e, nth_error (in_children x) 0 = Some e /\ in_maps e = in_maps x /\ in_kind e = in_kind x.
Proof.
  intros ts t x C A. destruct C; simpl in A; try contradiction; try congruence.
  - destruct H2 as [L H2]. destruct es as [|e es]; [simpl in L; lia|]. exists e. destruct (H2 0 e eq_refl) as [s [_ ->]]. auto.
  - destruct H4 as [L H4]. destruct es as [|e es]; [simpl in L; lia|]. exists e. destruct (H4 0 e eq_refl) as [s [_ ->]]. auto.
Qed.

Lemma array_refused : forall sb base e p x en i k v, reached sb e p x -> ~ keyed sb x -> nth_error (in_children x) 0 = Some en -> in_maps en = in_maps x ->
  nth_error (sb_keys sb) i = Some k -> given (in_maps x) k v -> ~ mappable sb base e.
Proof.
  intros sb base e p x en i k v [R1 R2] NK N EM K G M.
  assert (inst_at e (p ++ [0]) = Some en) as AT.
  { clear - R1 N. revert e R1. induction p as [|a p IH]; intros e R1; simpl in *; [inversion R1; subst; rewrite N; auto|].
    destruct (nth_error (in_children e) a); [auto|discriminate]. }
  assert (reached sb e (p ++ [0]) en) as RE.
  { split; auto. intros q r y E NE Y KY. destruct r as [|z r] using rev_ind; [congruence|]. clear IHr. rewrite app_assoc in E. apply app_inj_tail in E. destruct E as [E _].
    destruct r as [|w r]; [rewrite app_nil_r in E; subst q; congruence|]. apply (R2 q (w :: r) y E); auto; discriminate. }
  assert (in_maps en <> []) as NN. { rewrite EM. destruct G as [l [d [r [E _]]]]. rewrite E. destruct l; discriminate. }
  pose proof (M _ _ RE NN) as [A _ _]. rewrite EM in A. apply (A i k v v K G). right. exists p, [0], x, k. repeat split; auto. discriminate.
Qed.
