(** Proofs about mapping data, mapping contexts, amendment and object creation. *)
From Coq Require Import List Arith ZArith Bool Ascii String Lia Permutation.
From Verif Require Import Base BaseProofs TextModel TextSpec TextProofs CriterionModel TreeModel TreeSpec TreeProofs DomainProofs MapModel MapSpec.
Import ListNotations.
Local Open Scope nat_scope.

(** ** Mapping data *)

Lemma md_get_Some : forall d k v, md_get d k = Some v -> In (k, v) d.
Proof.
  induction d as [|[k' v'] d IH]; simpl; intros k v H; [discriminate|]. destruct (str_eqb k' k) eqn:E.
  - apply str_eqb_eq in E. inversion H; subst. auto.
  - right. auto.
Qed.

Lemma md_get_None : forall d k, md_get d k = None <-> ~ In k (map fst d).
Proof.
  induction d as [|[k' v'] d IH]; simpl; intros k; [tauto|]. destruct (str_eqb k' k) eqn:E.
  - apply str_eqb_eq in E. split; [discriminate|]. intros H. exfalso. auto.
  - apply str_eqb_neq in E. rewrite IH. intuition.
Qed.

Lemma md_get_In : forall d k v, NoDup (map fst d) -> (md_get d k = Some v <-> In (k, v) d).
Proof.
  intros d k v N. split; [apply md_get_Some|]. induction d as [|[k' v'] d IH]; simpl; intros H; [contradiction|].
  simpl in N. apply NoDup_cons_iff in N. destruct N as [N1 N2]. destruct (str_eqb k' k) eqn:E.
  - apply str_eqb_eq in E. subst k'. destruct H as [H|H]; [congruence|]. exfalso. apply N1. apply (in_map fst) in H. auto.
  - destruct H as [H|H]; [inversion H; subst; rewrite str_eqb_refl in E; discriminate|auto].
Qed.

Lemma md_put_perm : forall d k v, Permutation (md_put k v d) ((k, v) :: d).
Proof.
  induction d as [|[k' v'] d IH]; simpl; intros k v; auto. destruct (str_ltb k k'); auto.
  rewrite IH. apply perm_swap.
Qed.

Lemma md_item_spec : forall it k v, md_item it = (k, v) <-> item_of it k v.
Proof.
  unfold item_of. induction it as [|c it IH]; simpl; intros k v.
  - split.
    + intros H. inversion H; subst. split; auto. 
    + intros [_ [H|[H ->]]]; [destruct k; discriminate|subst; auto].
  - destruct (char_eqb c ":") eqn:E.
    + apply char_eqb_eq in E. subst c. split.
      * intros H. inversion H; subst. split; auto.
      * intros [N [H|[H ->]]].
        -- destruct k as [|x k]; simpl in H; inversion H; subst; auto. exfalso. apply N. left. auto.
        -- subst k. exfalso. apply N. left. auto.
    + assert (c <> ":"%char) as NE by (intros ->; rewrite (proj2 (char_eqb_eq _ _) eq_refl) in E; discriminate).
      destruct (md_item it) as [k0 v0] eqn:Ei. split.
      * intros H. inversion H; subst. destruct (proj1 (IH k0 v) eq_refl) as [N D]. split.
        -- intros [H1|H1]; [congruence|auto].
        -- destruct D as [->|[-> ->]]; [left|right]; auto.
      * intros [N D]. assert ((k0, v0) = (tl k, v) /\ k = c :: tl k) as [H1 H2].
        { destruct k as [|x k].
          - destruct D as [D|[D _]]; [|discriminate]. simpl in D. inversion D; subst. congruence.
          - simpl in *. assert (x = c) as -> by (destruct D as [D|[D _]]; inversion D; auto). split; auto. apply IH. split; [auto|].
            destruct D as [D|[D ->]]; inversion D; subst; auto. }
        inversion H1; subst. rewrite H2. auto.
Qed.

Lemma written_items : forall raw, exists kvs, written raw kvs.
Proof.
  intros raw. exists (map md_item (split raw (lit ",") true)), (split raw (lit ",") true). split; [apply split_merge_spec; auto|].
  induction (split raw (lit ",") true) as [|it l IH]; simpl; constructor; auto. apply md_item_spec. destruct (md_item it); auto.
Qed.

Lemma written_unique : forall raw kvs, written raw kvs -> kvs = map md_item (split raw (lit ",") true).
Proof.
  intros raw kvs [items [R F]]. apply split_merge_spec in R. subst items. clear - F. induction F as [|it [k v] l kvs H F IH]; simpl; auto.
  apply md_item_spec in H. simpl in H. rewrite H, IH. auto.
Qed.

Lemma md_add_all_spec : forall items d, NoDup (map fst d) ->
  match md_add_all items d with
  | Some d' => NoDup (map fst d') /\ Permutation d' (map md_item items ++ d) /\ NoDup (map fst (map md_item items ++ d))
  | None => ~ NoDup (map fst (map md_item items ++ d))
  end.
Proof.
  induction items as [|it items IH]; intros d N; [simpl; auto|]. cbn [md_add_all map app]. destruct (md_item it) as [k v] eqn:E. unfold md_add.
  destruct (md_get d k) as [w|] eqn:G.
  - cbn [map fst]. intros H. apply NoDup_cons_iff in H. destruct H as [H _]. apply H. apply md_get_Some in G.
    rewrite map_app, in_app_iff. right. apply (in_map fst) in G. auto.
  - apply md_get_None in G. pose proof (md_put_perm d k v) as P.
    assert (NoDup (map fst (md_put k v d))) as N'.
    { apply (Permutation_NoDup (l := map fst ((k, v) :: d))); [apply Permutation_map; symmetry; auto|]. simpl. constructor; auto. }
    assert (Permutation (map md_item items ++ md_put k v d) ((k, v) :: map md_item items ++ d)) as P2.
    { rewrite P. symmetry. apply Permutation_middle. }
    specialize (IH (md_put k v d) N'). destruct (md_add_all items (md_put k v d)) as [d'|].
    + destruct IH as [I1 [I2 I3]]. split; auto. split.
      * rewrite I2. auto.
      * exact (Permutation_NoDup (Permutation_map fst P2) I3).
    + intros H. apply IH. exact (Permutation_NoDup (Permutation_map fst (Permutation_sym P2)) H).
Qed.

Lemma md_init_spec : forall raw kvs, written raw kvs ->
  match md_init raw with
  | Some d => NoDup (map fst kvs) /\ NoDup (map fst d) /\ forall k v, md_get d k = Some v <-> In (k, v) kvs
  | None => ~ NoDup (map fst kvs)
  end.
Proof.
  intros raw kvs W. rewrite (written_unique _ _ W). unfold md_init.
  pose proof (md_add_all_spec (split raw (lit ",") true) [] (NoDup_nil _)) as H.
  destruct (md_add_all (split raw (lit ",") true) []) as [d|]; rewrite app_nil_r in H; auto. destruct H as [H1 [H2 H3]]. split; auto. split; auto.
  intros k v. rewrite (md_get_In _ _ _ H1). split; intros I; [apply (Permutation_in _ H2 I)|apply (Permutation_in _ (Permutation_sym H2) I)].
Qed.

(** ** Several mapping data *)

Lemma maps_get_spec : forall ds k v, distinct_keys ds -> (maps_get ds k = Some v <-> given ds k v).
Proof.
  intros ds k v D. unfold given. induction ds as [|d ds IH]; simpl.
  - split; [discriminate|]. intros [l [x [r [H _]]]]. destruct l; discriminate.
  - assert (distinct_keys ds) as D' by (intros x Hx; apply D; right; auto). destruct (md_get d k) as [w|] eqn:G.
    + split.
      * intros H. inversion H; subst. exists [], d, ds. split; auto. split; [apply md_get_Some; auto|]. intros ? ? [].
      * intros [l [x [r [H [I N]]]]]. destruct l as [|y l]; inversion H; subst.
        -- apply md_get_In in I; [congruence|]. apply D. left. auto.
        -- exfalso. apply (N y w); [left; auto|]. apply md_get_Some; auto.
    + rewrite (IH D'). apply md_get_None in G. split.
      * intros [l [x [r [-> [I N]]]]]. exists (d :: l), x, r. split; auto. split; auto. intros d' v' [<-|H] J; [|apply (N _ _ H J)].
        apply G. apply (in_map fst) in J. auto.
      * intros [l [x [r [H [I N]]]]]. destruct l as [|y l]; inversion H; subst.
        -- exfalso. apply G. apply (in_map fst) in I. auto.
        -- exists l, x, r. split; auto. split; auto. intros d' v' J. apply N. right. auto.
Qed.

Lemma maps_get_None : forall ds k, distinct_keys ds -> (maps_get ds k = None <-> forall v, ~ given ds k v).
Proof.
  intros ds k D. split.
  - intros H v G. apply maps_get_spec in G; auto. congruence.
  - intros H. destruct (maps_get ds k) as [v|] eqn:E; auto. exfalso. apply (H v), maps_get_spec; auto.
Qed.

Lemma given_nil : forall k v, ~ given [] k v.
Proof. intros k v [l [d [r [H _]]]]. destruct l; discriminate. Qed.

(** ** Amendment *)

Lemma amend_number_spec : forall nb d n, nb <= 9 -> (amend_number nb d = Some n <-> 1 <= n <= nb /\ bval d = (48 + Z.of_nat n)%Z).
Proof.
  intros nb d n Hn. unfold amend_number.
  destruct ((48 <? bval d)%Z && (bval d <=? 48 + Z.of_nat nb)%Z && (bval d <? 128)%Z) eqn:E.
  - rewrite !andb_true_iff in E. destruct E as [[E1 E2] E3]. apply Z.ltb_lt in E1. apply Z.leb_le in E2. split.
    + intros H. inversion H; subst. lia.
    + intros [H1 H2]. f_equal. lia.
  - split; [discriminate|]. intros [H1 H2]. exfalso. rewrite !andb_false_iff in E. destruct E as [[E|E]|E]; [apply Z.ltb_ge in E|apply Z.leb_gt in E|apply Z.ltb_ge in E]; lia.
Qed.

Lemma amend_spec : forall first nb cx s, 1 <= nb <= 9 -> first + nb <= List.length cx ->
  exists a b w, amend first nb cx s = Ok (w ++ b) /\ s = a ++ b /\ all_designate (amend_value cx first nb) a /\ amended (amend_value cx first nb) a w
    /\ (b = [] \/ stray (amend_value cx first nb) b).
Proof.
  intros first nb cx s Hn Hl. set (val := amend_value cx first nb).
  assert (forall d t, designates val d t <-> exists n, amend_number nb d = Some n /\ cx_set cx (first + n - 1) = Ok true /\ cx_get cx (first + n - 1) = Ok t) as DES.
  { intros d t. unfold designates, val, amend_value. split.
    - intros [n [H1 [H2 H3]]]. destruct (1 <=? n) eqn:A; [|discriminate]. destruct (n <=? nb) eqn:B; [|discriminate]. simpl in H3. apply Nat.leb_le in A, B.
      exists n. split; [apply amend_number_spec; lia|]. unfold cx_set, cx_get. replace (first + n - 1) with (first + (n - 1)) by lia.
      destruct (nth_error cx (first + (n - 1))) as [[[k v]|]|]; try discriminate. inversion H3; auto.
    - intros [n [H1 [H2 H3]]]. apply amend_number_spec in H1; [|lia]. exists n. split; [lia|]. split; [lia|].
      rewrite (proj2 (Nat.leb_le 1 n)), (proj2 (Nat.leb_le n nb)) by lia. simpl. unfold cx_get in H3. replace (first + n - 1) with (first + (n - 1)) in H3 by lia.
      destruct (nth_error cx (first + (n - 1))) as [[[k v]|]|]; try discriminate. inversion H3; auto. }
  assert (forall n, 1 <= n <= nb -> exists b, cx_set cx (first + n - 1) = Ok b /\ (b = true -> exists t, cx_get cx (first + n - 1) = Ok t)) as DEF.
  { intros n H. unfold cx_set, cx_get. destruct (nth_error cx (first + n - 1)) as [[[k v]|]|] eqn:E; [exists true; eauto|exists false; split; auto; discriminate|].
    apply nth_error_None in E. lia. }
  assert (forall s, amend first nb cx s = Ok s -> stray val s -> exists a b w, amend first nb cx s = Ok (w ++ b) /\ s = a ++ b /\ all_designate val a /\ amended val a w /\ (b = [] \/ stray val b)) as STRAY.
  { intros s0 H S. exists [], s0, []. repeat split; auto; constructor. }
  assert (forall n s, List.length s <= n -> exists a b w, amend first nb cx s = Ok (w ++ b) /\ s = a ++ b /\ all_designate val a /\ amended val a w /\ (b = [] \/ stray val b)) as G.
  { induction n as [|n IH]; intros s0 L.
    - destruct s0; [|simpl in L; lia]. exists [], [], []. repeat split; auto; constructor.
    - destruct s0 as [|c r]; [exists [], [], []; repeat split; auto; constructor|]. simpl in L.
      destruct (char_eqb c "%") eqn:Ec.
      + pose proof Ec as Ec'. apply char_eqb_eq in Ec'. subst c. destruct r as [|d r].
        * apply STRAY; [simpl; auto|]. exists []. split; auto. intros; discriminate.
        * destruct (amend_number nb d) as [m|] eqn:Em.
          -- pose proof (proj1 (amend_number_spec nb d m ltac:(lia)) Em) as [M1 M2]. destruct (DEF m M1) as [b [B1 B2]]. destruct b.
             ++ destruct (B2 eq_refl) as [t B3]. destruct (IH r ltac:(simpl in L; lia)) as [a [b [w [I1 [I2 [I3 [I4 I5]]]]]]].
                assert (designates val d t) as D by (apply DES; eauto).
                exists ("%"%char :: d :: a), b, (t ++ w). split.
                { cbn [amend]. rewrite Ec, Em, B1. cbn [obind]. rewrite I1. cbn [obind]. rewrite B3. cbn [obind]. rewrite app_assoc. auto. }
                split; [rewrite I2; auto|]. split; [econstructor; eauto|]. split; [constructor; auto|auto].
             ++ apply STRAY; [cbn [amend]; rewrite Ec, Em, B1; auto|]. exists (d :: r). split; auto. intros d' t r' H D. inversion H; subst d' r'.
                apply DES in D. destruct D as [m' [D1 [D2 D3]]]. rewrite Em in D1. inversion D1; subst m'. congruence.
          -- apply STRAY; [cbn [amend]; rewrite Ec, Em; auto|]. exists (d :: r). split; auto. intros d' t r' H D. inversion H; subst d' r'.
             apply DES in D. destruct D as [m' [D1 _]]. congruence.
      + assert (c <> "%"%char) as NE by (intros ->; rewrite (proj2 (char_eqb_eq _ _) eq_refl) in Ec; discriminate).
        destruct (IH r ltac:(lia)) as [a [b [w [I1 [I2 [I3 [I4 I5]]]]]]]. exists (c :: a), b, (c :: w). split.
        { cbn [amend]. rewrite Ec, I1. auto. }
        split; [rewrite I2; auto|]. split; [apply ad_char; auto|]. split; [|auto]. apply am_keep; [intros; contradiction|auto]. }
  apply (G (List.length s)). auto.
Qed.

(** When what follows designates nothing, everything is amended. *)
Lemma amended_app : forall val a b w, all_designate val a -> amended val a w ->
  forall b', amended val b b' -> amended val (a ++ b) (w ++ b').
Proof.
  intros val a b w AD. revert w. induction AD as [|d t s D A IH|c s NE A IH]; intros w AM b' H.
  - inversion AM; subst; auto.
  - inversion AM as [|d' t' s' w' D' A'|c' s' w' N A']; subst.
    + simpl. rewrite <- app_assoc. constructor; auto.
    + exfalso. apply (N d t s); auto.
  - inversion AM as [|d' t' s' w' D' A'|c' s' w' N A']; subst; [congruence|]. simpl. apply am_keep; [intros; contradiction|]. auto.
Qed.

Lemma amended_fun : forall val s w, amended val s w -> forall w', amended val s w' -> w = w'.
Proof.
  intros val s w A. induction A as [|d t s w D A IH|c s w N A IH]; intros w' H.
  - inversion H; auto.
  - inversion H as [|d' t' s' w2 D' A'|c' s' w2 N A']; subst.
    + rewrite (IH _ A'). f_equal. destruct D as [n [D1 [D2 D3]]], D' as [n' [D1' [D2' D3']]]. assert (n = n') by lia. subst. congruence.
    + exfalso. apply (N d t s); auto.
  - inversion H as [|d' t' s' w2 D' A'|c' s' w2 N' A']; subst.
    + exfalso. apply (N d' t' s'); auto.
    + f_equal. auto.
Qed.

(** ** Contexts *)

(** The items of the context bear the context keys of the subsystem. *)
Definition cx_wf (keys : list str) (cx : list (option (str * str))) : Prop :=
  List.length cx = List.length keys /\ forall i k v, nth_error cx i = Some (Some (k, v)) -> nth_error keys i = Some k.

(** The values it holds. *)
Definition known (cx : list (option (str * str))) (i : nat) (v : str) : Prop := exists k, nth_error cx i = Some (Some (k, v)).

Lemma nth_update : forall A (l : list A) i x j, i < List.length l ->
  nth_error (firstn i l ++ x :: skipn (S i) l) j = if j =? i then Some x else nth_error l j.
Proof.
  intros A l i x j H. destruct (j =? i) eqn:E.
  - apply Nat.eqb_eq in E. subst j. rewrite nth_error_app2; rewrite firstn_length_le by lia; [|lia]. rewrite Nat.sub_diag. auto.
  - apply Nat.eqb_neq in E. destruct (Nat.lt_ge_cases j i) as [L|L].
    + rewrite nth_error_app1 by (rewrite firstn_length_le; lia). rewrite nth_error_firstn by lia. auto.
    + rewrite nth_error_app2; rewrite firstn_length_le by lia; [|lia]. replace (j - i) with (S (j - S i)) by lia. cbn [nth_error].
      rewrite nth_error_skipn. f_equal. lia.
Qed.

Lemma cx_put_spec : forall cx i k v, i < List.length cx ->
  match cx_put cx i k v with
  | Ok (Some cx') => nth_error cx i = Some None /\ List.length cx' = List.length cx
                     /\ forall j, nth_error cx' j = if j =? i then Some (Some (k, v)) else nth_error cx j
  | Ok None => exists w, known cx i w
  | _ => False
  end.
Proof.
  intros cx i k v H. unfold cx_put, cx_set. destruct (nth_error cx i) as [[[k' w]|]|] eqn:E; cbn [obind].
  - exists w, k'. auto.
  - split; auto. split; [|intros j; apply nth_update; auto]. rewrite app_length. cbn [List.length]. rewrite firstn_length_le, skipn_length by lia. lia.
  - apply nth_error_None in E. lia.
Qed.

Lemma handle_context_spec : forall rest pre ms cx, cx_wf (pre ++ rest) cx ->
  match handle_context rest (List.length pre) ms cx with
  | Ok (true, cx') => cx_wf (pre ++ rest) cx'
      /\ (forall j k v, nth_error rest j = Some k -> maps_get ms k = Some v -> forall w, ~ known cx (List.length pre + j) w)
      /\ (forall j, nth_error cx' j = match (if j <? List.length pre then None else nth_error rest (j - List.length pre)) with
                                      | Some k => match maps_get ms k with Some v => Some (Some (k, v)) | None => nth_error cx j end
                                      | None => nth_error cx j end)
  | Ok (false, _) => exists j k v w, nth_error rest j = Some k /\ maps_get ms k = Some v /\ known cx (List.length pre + j) w
  | _ => False
  end.
Proof.
  induction rest as [|k rest IH]; intros pre ms cx W; cbn [handle_context].
  - split; auto. split; [intros j k v H; destruct j; discriminate|]. intros j. destruct (j <? List.length pre); auto. destruct (j - List.length pre); auto.
  - assert (pre ++ k :: rest = (pre ++ [k]) ++ rest) as EQ by (rewrite <- app_assoc; auto).
    assert (List.length (pre ++ [k]) = S (List.length pre)) as LEN by (rewrite app_length; simpl; lia).
    assert (List.length pre < List.length cx) as LT by (destruct W as [W _]; rewrite W, app_length; simpl; lia).
    destruct (maps_get ms k) as [v|] eqn:G.
    + pose proof (cx_put_spec cx (List.length pre) k v LT) as P. destruct (cx_put cx (List.length pre) k v) as [[cx1|]| | |]; cbn [obind]; try contradiction.
      * destruct P as [P1 [P2 P3]]. assert (cx_wf ((pre ++ [k]) ++ rest) cx1) as W1.
        { rewrite <- EQ. destruct W as [W1 W2]. split; [congruence|]. intros i k' v' H. rewrite P3 in H. destruct (i =? List.length pre) eqn:Ei; [|eauto].
          apply Nat.eqb_eq in Ei. inversion H; subst. rewrite nth_error_app2 by lia. rewrite Nat.sub_diag. auto. }
        specialize (IH (pre ++ [k]) ms cx1 W1). rewrite LEN in IH. destruct (handle_context rest (S (List.length pre)) ms cx1) as [[[|] cx2]| | |]; auto.
        -- destruct IH as [I1 [I2 I3]]. rewrite <- EQ in I1. split; auto. split.
           ++ intros j k' v' Hj Hv w [kw Hw]. destruct j as [|j]; simpl in Hj.
              ** rewrite Nat.add_0_r in Hw. congruence.
              ** apply (I2 j k' v' Hj Hv w). exists kw. rewrite P3. rewrite (proj2 (Nat.eqb_neq _ _)) by lia. rewrite <- Hw. f_equal. lia.
           ++ intros j. rewrite I3, P3. destruct (j <? S (List.length pre)) eqn:A.
              ** apply Nat.ltb_lt in A. destruct (j =? List.length pre) eqn:B.
                 --- apply Nat.eqb_eq in B. subst j. rewrite Nat.ltb_irrefl, Nat.sub_diag. simpl. rewrite G. auto.
                 --- apply Nat.eqb_neq in B. rewrite (proj2 (Nat.ltb_lt _ _)) by lia. auto.
              ** apply Nat.ltb_ge in A. rewrite (proj2 (Nat.eqb_neq _ _)) by lia. rewrite (proj2 (Nat.ltb_ge _ _)) by lia.
                 replace (j - List.length pre) with (S (j - S (List.length pre))) by lia. auto.
        -- destruct IH as [j [k' [v' [w [H1 [H2 [kw H3]]]]]]]. exists (S j), k', v', w. split; auto. split; auto. exists kw. rewrite P3 in H3.
           rewrite (proj2 (Nat.eqb_neq _ _)) in H3 by lia. rewrite <- H3. f_equal. lia.
      * destruct P as [w P]. exists 0, k, v, w. rewrite Nat.add_0_r. auto.
    + assert (cx_wf ((pre ++ [k]) ++ rest) cx) as W1 by (rewrite <- EQ; auto). specialize (IH (pre ++ [k]) ms cx W1). rewrite LEN in IH.
      destruct (handle_context rest (S (List.length pre)) ms cx) as [[[|] cx2]| | |]; auto.
      * destruct IH as [I1 [I2 I3]]. rewrite <- EQ in I1. split; auto. split.
        -- intros j k' v' Hj Hv w [kw Hw]. destruct j as [|j]; simpl in Hj; [congruence|]. apply (I2 j k' v' Hj Hv w). exists kw. rewrite <- Hw. f_equal. lia.
        -- intros j. rewrite I3. destruct (j <? S (List.length pre)) eqn:A.
           ++ apply Nat.ltb_lt in A. destruct (Nat.eq_dec j (List.length pre)) as [->|B].
              ** rewrite Nat.ltb_irrefl, Nat.sub_diag. simpl. rewrite G. auto.
              ** rewrite (proj2 (Nat.ltb_lt _ _)) by lia. auto.
           ++ apply Nat.ltb_ge in A. rewrite (proj2 (Nat.ltb_ge _ _)) by lia. replace (j - List.length pre) with (S (j - S (List.length pre))) by lia. auto.
      * destruct IH as [j [k' [v' [w [H1 [H2 [kw H3]]]]]]]. exists (S j), k', v', w. split; auto. split; auto. exists kw. rewrite <- H3. f_equal. lia.
Qed.

(** The context after an element. *)
Definition extended (sb : subsystem) (base : nat -> str -> Prop) (ms : list (list (str * str))) (i : nat) (v : str) : Prop :=
  base i v \/ exists k, nth_error (sb_keys sb) i = Some k /\ given ms k v.

Lemma handle_spec : forall sb ms cx, cx_wf (sb_keys sb) cx -> distinct_keys ms ->
  match handle_context (sb_keys sb) 0 ms cx with
  | Ok (true, cx') => cx_wf (sb_keys sb) cx'
      /\ (forall i k v, nth_error (sb_keys sb) i = Some k -> given ms k v -> forall w, ~ known cx i w)
      /\ (forall i v, known cx' i v <-> extended sb (known cx) ms i v)
  | Ok (false, _) => exists i k v w, nth_error (sb_keys sb) i = Some k /\ given ms k v /\ known cx i w
  | _ => False
  end.
Proof.
  intros sb ms cx W D. pose proof (handle_context_spec (sb_keys sb) [] ms cx W) as H. cbn [List.length app] in H.
  destruct (handle_context (sb_keys sb) 0 ms cx) as [[[|] cx']| | |]; auto.
  - destruct H as [H1 [H2 H3]]. split; auto.
    assert (forall i k v, nth_error (sb_keys sb) i = Some k -> given ms k v -> forall w, ~ known cx i w) as ONCE.
    { intros i k v A B. apply maps_get_spec in B; auto. apply (H2 i k v A B). }
    split; auto. intros i v. unfold known, extended. specialize (H3 i). rewrite Nat.sub_0_r in H3. cbn [Nat.ltb Nat.leb] in H3. split.
    + intros [k E]. rewrite H3 in E. destruct (nth_error (sb_keys sb) i) as [k0|] eqn:K.
      * destruct (maps_get ms k0) as [v0|] eqn:G; [|left; exists k; auto]. right. inversion E; subst. exists k. split; auto. apply maps_get_spec; auto.
      * left. exists k. auto.
    + intros [[k E]|[k [K G]]].
      * exists k. rewrite H3. destruct (nth_error (sb_keys sb) i) as [k0|] eqn:K; auto. destruct (maps_get ms k0) as [v0|] eqn:G; auto. exfalso.
        apply maps_get_spec in G; auto. apply (ONCE i k0 v0 K G v). exists k. auto.
      * exists k. rewrite H3, K. apply maps_get_spec in G; auto. rewrite G. auto.
  - destruct H as [j [k [v [w [A [B C]]]]]]. exists j, k, v, w. split; auto. split; auto. apply maps_get_spec; auto.
Qed.

Lemma check_ancestors_spec : forall n i mask cx, i + n <= 32 -> i + n <= List.length cx ->
  match check_ancestors n i mask cx with
  | Ok _ => forall j, i <= j < i + n -> Z.testbit mask (Z.of_nat j) = true -> exists w, known cx j w
  | Err => exists j, i <= j < i + n /\ Z.testbit mask (Z.of_nat j) = true /\ forall w, ~ known cx j w
  | _ => False
  end.
Proof.
  induction n as [|n IH]; intros i mask cx H1 H2; cbn [check_ancestors]; [intros j H; lia|].
  rewrite (proj2 (Nat.leb_gt 32 i)) by lia. specialize (IH (S i) mask cx ltac:(lia) ltac:(lia)).
  destruct (Z.testbit mask (Z.of_nat i)) eqn:T.
  - unfold cx_set. destruct (nth_error cx i) as [[[k v]|]|] eqn:E; cbn [obind].
    + destruct (check_ancestors n (S i) mask cx); auto.
      * intros j Hj Tj. destruct (Nat.eq_dec j i) as [->|]; [exists v, k; auto|]. apply IH; auto; lia.
      * destruct IH as [j [A B]]. exists j. split; auto; lia.
    + exists i. split; [lia|]. split; auto. intros w [k H]. congruence.
    + apply nth_error_None in E. lia.
  - destruct (check_ancestors n (S i) mask cx); auto.
    + intros j Hj Tj. destruct (Nat.eq_dec j i) as [->|]; [congruence|]. apply IH; auto; lia.
    + destruct IH as [j [A B]]. exists j. split; auto; lia.
Qed.

Lemma find_creator_spec : forall crs n ms, distinct_keys ms ->
  match find_creator crs n ms with
  | Some (j, c, v) => exists i, j = n + i /\ nth_error crs i = Some c /\ given ms (cr_key c) v
                               /\ forall i' c' v', i' < i -> nth_error crs i' = Some c' -> ~ given ms (cr_key c') v'
  | None => forall i c v, nth_error crs i = Some c -> ~ given ms (cr_key c) v
  end.
Proof.
  induction crs as [|c crs IH]; intros n ms D; cbn [find_creator]; [intros i c v H; destruct i; discriminate|].
  destruct (maps_get ms (cr_key c)) as [v|] eqn:G.
  - exists 0. split; [lia|]. split; auto. split; [apply maps_get_spec; auto|]. intros; lia.
  - pose proof (proj1 (maps_get_None _ _ D) G) as G0; clear G; rename G0 into G. specialize (IH (S n) ms D). destruct (find_creator crs (S n) ms) as [[[j c'] v]|].
    + destruct IH as [i [-> [A [B C]]]]. exists (S i). split; [lia|]. split; auto. split; auto. intros i' c2 v2 L E. destruct i' as [|i']; simpl in E.
      * inversion E; subst. apply G.
      * apply (C i' c2 v2); auto; lia.
    + intros i c' v E. destruct i as [|i]; simpl in E; [inversion E; subst; apply G|]. apply (IH i); auto.
Qed.

Lemma chosen_find : forall sb x, distinct_keys (in_maps x) ->
  match find_creator (sb_creators sb) 0 (in_maps x) with
  | Some (j, c, v) => chosen sb x j c v
  | None => ~ keyed sb x
  end.
Proof.
  intros sb x D. pose proof (find_creator_spec (sb_creators sb) 0 (in_maps x) D) as H. destruct (find_creator (sb_creators sb) 0 (in_maps x)) as [[[j c] v]|].
  - destruct H as [i [-> [A [B C]]]]. split; auto.
  - intros [j [c [v [A [B C]]]]]. apply (H j c v A B).
Qed.

Lemma given_fun : forall ds k v w, distinct_keys ds -> given ds k v -> given ds k w -> v = w.
Proof. intros ds k v w D A B. apply maps_get_spec in A, B; auto. congruence. Qed.

Lemma chosen_fun : forall sb x j c v j' c' v', distinct_keys (in_maps x) -> chosen sb x j c v -> chosen sb x j' c' v' -> j = j' /\ c = c' /\ v = v'.
Proof.
  intros sb x j c v j' c' v' D [A [B C]] [A' [B' C']]. destruct (lt_eq_lt_dec j j') as [[L|E]|L].
  - exfalso. apply (C' j c v L A B).
  - subst j'. assert (c = c') by congruence. subst c'. split; auto. split; auto. apply (given_fun _ _ _ _ D B B').
  - exfalso. apply (C j' c' v' L A' B').
Qed.

(** ** Trees *)

Lemma inst_ind_nested : forall P : inst -> Prop,
  (forall nm k ms cs, Forall P cs -> P (Inst nm k ms cs)) -> forall e, P e.
Proof.
  intros P H. fix IH 1. intros [nm k ms cs]. apply H. induction cs as [|c cs IHc]; constructor; auto.
Qed.

Lemma map_elem_eq : forall sb nm k ms cs cx,
  map_elem sb (Inst nm k ms cs) cx =
  (do st <- (match ms with [] => Ok (cx, None) | _ :: _ => map_begin sb (Inst nm k ms cs) cx end);
   match snd st with Some o => Ok [o] | None => map_children sb cs 0 (fst st) end).
Proof.
  intros. cbn [map_elem]. destruct (match ms with [] => _ | _ :: _ => _ end) as [[cx' [o|]]| | |]; cbn [obind snd fst]; auto.
  assert (forall i, (fix go (cs : list inst) (i : nat) : outcome (list object) :=
             match cs with
             | [] => Ok []
             | c :: r => do a <- map_elem sb c cx'; do b <- go r (S i); Ok (map (ob_shift i) a ++ b)
             end) cs i = map_children sb cs i cx') as G.
  { induction cs as [|c r IH]; intros i; cbn [map_children]; auto. destruct (map_elem sb c cx'); cbn [obind]; auto. rewrite IH. auto. }
  apply G.
Qed.

Section Tree.
Variable sb : subsystem.

Lemma reached_here : forall e x, reached sb e [] x <-> x = e.
Proof.
  intros e x. split.
  - intros [H _]. simpl in H. congruence.
  - intros ->. split; auto. intros q r y H N. destruct q; simpl in H; [subst; contradiction|discriminate].
Qed.

Lemma reached_child : forall nm k ms cs i p x,
  reached sb (Inst nm k ms cs) (i :: p) x <-> ~ keyed sb (Inst nm k ms cs) /\ exists c, nth_error cs i = Some c /\ reached sb c p x.
Proof.
  intros nm k ms cs i p x. split.
  - intros [H A]. split; [apply (A [] (i :: p)); auto; discriminate|]. simpl in H. destruct (nth_error cs i) as [c|] eqn:E; [|discriminate].
    exists c. split; auto. split; auto. intros q r y -> N Hy. apply (A (i :: q) r y); auto. simpl. rewrite E. auto.
  - intros [N [c [E [H A]]]]. split; [simpl; rewrite E; auto|]. intros q r y Hp Nr Hy. destruct q as [|j q].
    + simpl in Hy. inversion Hy; subst. auto.
    + simpl in Hp. inversion Hp; subst. simpl in Hy. rewrite E in Hy. apply (A q r y); auto.
Qed.

Lemma collected_here : forall base e i v, collected sb base e [] i v <-> extended sb base (in_maps e) i v.
Proof.
  intros base e i v. unfold collected, extended. split.
  - intros [H|[q [x [k [[r A] [B [C D]]]]]]]; auto. right. destruct q; [|discriminate]. simpl in B. inversion B; subst. exists k. auto.
  - intros [H|[k [A B]]]; auto. right. exists [], e, k. split; [exists []; auto|]. auto.
Qed.

Lemma collected_child : forall base nm k ms cs i c p j v, nth_error cs i = Some c ->
  (collected sb base (Inst nm k ms cs) (i :: p) j v <-> collected sb (extended sb base ms) c p j v).
Proof.
  intros base nm k ms cs i c p j v E. unfold collected, extended. split.
  - intros [H|[q [x [k' [[r A] [B [C D]]]]]]]; auto. destruct q as [|i' q].
    + simpl in B. inversion B; subst. left. right. exists k'. auto.
    + simpl in A. inversion A; subst. simpl in B. rewrite E in B. right. exists q, x, k'. split; [exists r; auto|]. auto.
  - intros [[H|[k' [A B]]]|[q [x [k' [[r A] [B [C D]]]]]]]; auto.
    + right. exists [], (Inst nm k ms cs), k'. split; [exists (i :: p); auto|]. auto.
    + right. exists (i :: q), x, k'. split; [exists r; rewrite A; auto|]. split; auto. simpl. rewrite E. auto.
Qed.

Lemma collected_above_here : forall base e i v, collected_above sb base e [] i v <-> base i v.
Proof.
  intros base e i v. unfold collected_above. split; [|auto]. intros [H|[q [r [x [k [A [B _]]]]]]]; auto. destruct q; simpl in A; [subst; contradiction|discriminate].
Qed.

Lemma collected_above_child : forall base nm k ms cs i c p j v, nth_error cs i = Some c ->
  (collected_above sb base (Inst nm k ms cs) (i :: p) j v <-> collected_above sb (extended sb base ms) c p j v).
Proof.
  intros base nm k ms cs i c p j v E. unfold collected_above, extended. split.
  - intros [H|[q [r [x [k' [A [N [B [C D]]]]]]]]]; auto. destruct q as [|i' q].
    + simpl in B. inversion B; subst. left. right. exists k'. auto.
    + simpl in A. inversion A; subst. simpl in B. rewrite E in B. right. exists q, r, x, k'. auto.
  - intros [[H|[k' [A B]]]|[q [r [x [k' [A [N [B [C D]]]]]]]]]; auto.
    + right. exists [], (i :: p), (Inst nm k ms cs), k'. split; auto. split; [discriminate|]. auto.
    + right. exists (i :: q), r, x, k'. split; [rewrite A; auto|]. split; auto. split; auto. simpl. rewrite E. auto.
Qed.

Lemma collected_ext : forall b1 b2 e p i v, (forall i v, b1 i v <-> b2 i v) -> (collected sb b1 e p i v <-> collected sb b2 e p i v).
Proof. intros b1 b2 e p i v H. unfold collected. rewrite H. tauto. Qed.

Lemma collected_above_ext : forall b1 b2 e p i v, (forall i v, b1 i v <-> b2 i v) -> (collected_above sb b1 e p i v <-> collected_above sb b2 e p i v).
Proof. intros b1 b2 e p i v H. unfold collected_above. rewrite H. tauto. Qed.

Lemma accepted_change : forall b1 e1 p1 b2 e2 p2 x, (forall i v, collected sb b1 e1 p1 i v <-> collected sb b2 e2 p2 i v) ->
  (forall i v, collected_above sb b1 e1 p1 i v <-> collected_above sb b2 e2 p2 i v) -> accepted sb b1 e1 p1 x -> accepted sb b2 e2 p2 x.
Proof.
  intros b1 e1 p1 b2 e2 p2 x H1 H2 [A B C]. constructor; auto.
  - intros i k v w K G H. apply H2 in H. apply (A i k v w K G H).
  - intros j c v H. destruct (C j c v H) as [C1 C2]. split; auto. intros i L T. destruct (C2 i L T) as [w Hw]. exists w. apply H1. auto.
Qed.

(** A tree is mapped when its root is accepted and, unless it holds an object, its children are mapped. *)
Lemma mappable_node : forall base nm k ms cs, 
  (mappable sb base (Inst nm k ms cs) <->
   (ms <> [] -> accepted sb base (Inst nm k ms cs) [] (Inst nm k ms cs))
   /\ (~ keyed sb (Inst nm k ms cs) -> forall i c, nth_error cs i = Some c -> mappable sb (extended sb base ms) c)).
Proof.
  intros base nm k ms cs. split.
  - intros M. split.
    + intros N. apply M; auto. apply reached_here. auto.
    + intros N i c E p x R Nx. apply (accepted_change base (Inst nm k ms cs) (i :: p)).
      * intros j v. apply collected_child; auto.
      * intros j v. apply collected_above_child; auto.
      * apply M; auto. apply reached_child. eauto.
  - intros [H1 H2] p x R Nx. destruct p as [|i p].
    + apply reached_here in R. subst x. apply H1. auto.
    + apply reached_child in R. destruct R as [N [c [E R]]]. apply (accepted_change (extended sb base ms) c p).
      * intros j v. symmetry. apply collected_child; auto.
      * intros j v. symmetry. apply collected_above_child; auto.
      * apply (H2 N i c E); auto.
Qed.

Lemma mappable_ext : forall b1 b2 e, (forall i v, b1 i v <-> b2 i v) -> mappable sb b1 e -> mappable sb b2 e.
Proof.
  intros b1 b2 e H M p x R N. apply (accepted_change b1 e p); auto.
  - intros. apply collected_ext; auto.
  - intros. apply collected_above_ext; auto.
Qed.

Lemma known_context : forall cx base e, cx_wf (sb_keys sb) cx -> (forall i v, known cx i v <-> extended sb base (in_maps e) i v) ->
  context_of sb base e [] cx.
Proof.
  intros cx base e [W1 W2] K. split; auto. intros i k v. split.
  - intros H. split; [eauto|]. apply collected_here, K. exists k. auto.
  - intros [H1 H2]. apply collected_here in H2. apply K in H2. destruct H2 as [k' H2]. assert (k' = k) by (apply W2 in H2; congruence). subst. auto.
Qed.

Lemma context_of_ext : forall b1 b2 e p cx, (forall i v, b1 i v <-> b2 i v) -> context_of sb b1 e p cx -> context_of sb b2 e p cx.
Proof.
  intros b1 b2 e p cx H [A B]. split; auto. intros i k v. rewrite B. rewrite (collected_ext b1 b2); auto. tauto.
Qed.

Definition spec_of (base : nat -> str -> Prop) (e : inst) (o : outcome (list object)) : Prop :=
  match o with
  | Ok objs => mappable sb base e /\ objects_of sb base e objs
  | Err => ~ mappable sb base e
  | _ => False
  end.

Lemma tree_keys_child : forall nm k ms cs i c, tree_keys (Inst nm k ms cs) -> nth_error cs i = Some c -> tree_keys c.
Proof. intros nm k ms cs i c T E p x H. apply (T (i :: p) x). simpl. rewrite E. auto. Qed.

Lemma keyed_nil : forall nm k cs, ~ keyed sb (Inst nm k [] cs).
Proof. intros nm k cs [j [c [v [_ [G _]]]]]. apply (given_nil _ _ G). Qed.

(** mapBegin. *)
Lemma map_begin_spec : forall e cx, few_keys sb -> cx_wf (sb_keys sb) cx -> distinct_keys (in_maps e) ->
  match map_begin sb e cx with
  | Ok (cx', o) => accepted sb (known cx) e [] e /\ cx_wf (sb_keys sb) cx' /\ (forall i v, known cx' i v <-> extended sb (known cx) (in_maps e) i v)
      /\ match o with
         | Some b => exists c, ob_pos b = [] /\ ob_ctx b = cx' /\ chosen sb e (ob_creator b) c (ob_value b)
         | None => ~ keyed sb e
         end
  | Err => ~ accepted sb (known cx) e [] e
  | _ => False
  end.
Proof.
  intros e cx F W D. unfold map_begin. pose proof (handle_spec sb (in_maps e) cx W D) as H.
  destruct (handle_context (sb_keys sb) 0 (in_maps e) cx) as [[[|] cx']| | |]; cbn [obind]; try contradiction.
  - destruct H as [W' [ONCE K]].
    assert (forall i k v w, nth_error (sb_keys sb) i = Some k -> given (in_maps e) k v -> ~ collected_above sb (known cx) e [] i w) as AC1.
    { intros i k v w A B C. apply collected_above_here in C. apply (ONCE i k v A B w C). }
    destruct (must_create (in_kind e)) as [must|] eqn:M.
    + unfold create_object. pose proof (chosen_find sb e D) as CF. destruct (find_creator (sb_creators sb) 0 (in_maps e)) as [[[j c] v]|].
      * pose proof (check_ancestors_spec (List.length (sb_keys sb)) 0 (cr_mask c) cx' F) as CA. destruct W' as [L' W2].
        specialize (CA ltac:(simpl; lia)). destruct (check_ancestors (List.length (sb_keys sb)) 0 (cr_mask c) cx'); cbn [obind]; try contradiction.
        -- destruct (cr_max c <? footprint (forget e)) eqn:S; cbn [obind].
           ++ apply Nat.ltb_lt in S. intros [_ _ AC]. destruct (AC j c v CF) as [AC2 _]. lia.
           ++ apply Nat.ltb_ge in S. split; [|split; [split; auto|split; [auto|]]].
              ** constructor; auto.
                 --- destruct (in_kind e); simpl in M; try discriminate; simpl; auto; right; split; auto; exists j, c, v; auto.
                 --- intros j' c' v' CH. destruct (chosen_fun _ _ _ _ _ _ _ _ D CF CH) as [<- [<- <-]]. split; auto. intros i Hi Ti.
                     destruct (CA i ltac:(lia) Ti) as [w Hw]. exists w. apply collected_here, K. auto.
              ** exists c. auto.
        -- intros [_ _ AC]. destruct (AC j c v CF) as [_ AC2]. destruct CA as [i [Hi [Ti N]]]. destruct (AC2 i ltac:(lia) Ti) as [w Hw].
           apply collected_here in Hw. apply K in Hw. apply (N w Hw).
      * cbn [obind]. destruct must.
        -- intros [_ AC _]. destruct AC as [AC|[_ AC]]; [|contradiction]. destruct (in_kind e); simpl in *; discriminate.
        -- split; [|split; [auto|split; auto]]. constructor; auto.
           ++ left. destruct (in_kind e); simpl in *; try discriminate; auto.
           ++ intros j c v CH. exfalso. apply CF. exists j, c, v. auto.
    + intros [_ AC _]. destruct (in_kind e); simpl in *; try discriminate; destruct AC as [AC|[AC _]]; discriminate.
  - destruct H as [i [k [v [w [A [B C]]]]]]. intros [AC _ _]. apply (AC i k v w A B). apply collected_above_here. auto.
Qed.

Lemma map_children_spec : forall cx cs, Forall (fun c => forall cx, few_keys sb -> cx_wf (sb_keys sb) cx -> tree_keys c -> spec_of (known cx) c (map_elem sb c cx)) cs ->
  few_keys sb -> cx_wf (sb_keys sb) cx -> (forall i c, nth_error cs i = Some c -> tree_keys c) -> forall n,
  match map_children sb cs n cx with
  | Ok objs => (forall i c, nth_error cs i = Some c -> mappable sb (known cx) c)
      /\ (forall p, In p (map ob_pos objs) <-> exists i c q x, nth_error cs i = Some c /\ p = (n + i) :: q /\ reached sb c q x /\ keyed sb x)
      /\ NoDup (map ob_pos objs)
      /\ (forall o, In o objs -> exists i c q x cr, nth_error cs i = Some c /\ ob_pos o = (n + i) :: q /\ inst_at c q = Some x
                                               /\ chosen sb x (ob_creator o) cr (ob_value o) /\ context_of sb (known cx) c q (ob_ctx o))
  | Err => exists i c, nth_error cs i = Some c /\ ~ mappable sb (known cx) c
  | _ => False
  end.
Proof.
  intros cx cs F FK W. induction cs as [|c cs IH]; intros T n; cbn [map_children].
  - split; [intros i c H; destruct i; discriminate|]. split; [|split; [constructor|intros o []]].
    intros p. split; [intros []|]. intros [i [c [q [x [H _]]]]]. destruct i; discriminate.
  - apply Forall_cons_iff in F. destruct F as [F1 F2]. specialize (F1 cx FK W (T 0 c eq_refl)). unfold spec_of in F1.
    destruct (map_elem sb c cx) as [a| | |]; cbn [obind]; try contradiction; [|exists 0, c; auto].
    destruct F1 as [M1 [O1 [O2 O3]]]. specialize (IH F2 (fun i x => T (S i) x) (S n)). destruct (map_children sb cs (S n) cx) as [b| | |]; cbn [obind]; try contradiction.
    + destruct IH as [M2 [P1 [P2 P3]]]. assert (map ob_pos (map (ob_shift n) a) = map (cons n) (map ob_pos a)) as SH.
      { rewrite !map_map. apply map_ext. auto. }
      split; [|split; [|split]].
      * intros [|i] x H; simpl in H; [inversion H; subst; auto|]. apply (M2 i x H).
      * intros p. rewrite map_app, in_app_iff, SH, P1, in_map_iff. split.
        -- intros [[q [<- H]]|[i [x [q [y [A [-> B]]]]]]].
           ++ apply O1 in H. destruct H as [y [B C]]. exists 0, c, q, y. rewrite Nat.add_0_r. auto.
           ++ exists (S i), x, q, y. split; auto. split; [f_equal; lia|auto].
        -- intros [i [x [q [y [A [-> B]]]]]]. destruct i as [|i]; simpl in A.
           ++ inversion A; subst x. left. exists q. rewrite Nat.add_0_r. split; auto. apply O1. eauto.
           ++ right. exists i, x, q, y. split; auto. split; [f_equal; lia|auto].
      * rewrite map_app, SH. apply NoDup_app.
        -- apply FinFun.Injective_map_NoDup; auto. intros x y H. congruence.
        -- auto.
        -- intros p H1 H2. apply in_map_iff in H1. destruct H1 as [q [<- _]]. apply P1 in H2. destruct H2 as [i [x [q' [y [_ [H _]]]]]]. inversion H. lia.
      * intros o H. apply in_app_iff in H. destruct H as [H|H].
        -- apply in_map_iff in H. destruct H as [o' [<- H]]. destruct (O3 o' H) as [x [cr [A [B C]]]]. exists 0, c, (ob_pos o'), x, cr. simpl.
           rewrite Nat.add_0_r. auto.
        -- destruct (P3 o H) as [i [x [q [y [cr [A [B C]]]]]]]. exists (S i), x, q, y, cr. split; auto. split; [rewrite B; f_equal; lia|auto].
    + destruct IH as [i [x [A B]]]. exists (S i), x. auto.
Qed.

Theorem map_elem_spec : forall e cx, few_keys sb -> cx_wf (sb_keys sb) cx -> tree_keys e -> spec_of (known cx) e (map_elem sb e cx).
Proof.
  induction e as [nm k ms cs IH] using inst_ind_nested. intros cx F W T. rewrite map_elem_eq.
  set (e := Inst nm k ms cs). assert (distinct_keys ms) as D by (apply (T [] e); auto).
  assert (forall cx', cx_wf (sb_keys sb) cx' -> (forall i v, known cx' i v <-> extended sb (known cx) ms i v) -> ~ keyed sb e ->
            (ms <> [] -> accepted sb (known cx) e [] e) -> spec_of (known cx) e (map_children sb cs 0 cx')) as DIVE.
  { intros cx' W' K NK AC. pose proof (map_children_spec cx' cs IH F W' (fun i c => tree_keys_child nm k ms cs i c T) 0) as H.
    unfold spec_of. destruct (map_children sb cs 0 cx') as [objs| | |]; auto.
    - destruct H as [H1 [H2 [H3 H4]]]. split.
      + apply mappable_node. split; auto. intros _ i c E. apply (mappable_ext (known cx')); auto.
        apply (H1 i c E).
      + split; [|split; auto].
        * intros p. rewrite H2. split.
          -- intros [i [c [q [x [A [-> [B C]]]]]]]. exists x. split; auto. apply reached_child. eauto.
          -- intros [x [R KX]]. destruct p as [|i p]; [apply reached_here in R; subst x; contradiction|]. apply reached_child in R.
             destruct R as [_ [c [E R]]]. exists i, c, p, x. auto.
        * intros o Ho. destruct (H4 o Ho) as [i [c [q [x [cr [A [B [C [G E]]]]]]]]]. exists x, cr. rewrite B. simpl. rewrite A. split; auto. split; auto.
          destruct E as [E1 E2]. split; auto. intros j k' v. rewrite E2. unfold e. rewrite (collected_child _ _ _ _ _ i c) by auto.
          rewrite (collected_ext (known cx') (extended sb (known cx) ms)) by auto. tauto.
    - destruct H as [i [c [E N]]]. intros M. apply N. apply mappable_node in M. destruct M as [_ M]. 
      apply (mappable_ext (extended sb (known cx) ms)); [intros; symmetry; apply K|]. apply (M NK i c E). }
  destruct ms as [|m ms'].
  - cbn [obind snd fst]. apply DIVE; auto.
    + intros i v. unfold extended. split; [auto|]. intros [H|[k' [_ G]]]; auto. destruct (given_nil _ _ G).
    + apply keyed_nil.
    + intros H. congruence.
  - pose proof (map_begin_spec e cx F W D) as B. destruct (map_begin sb e cx) as [[cx' [o|]]| | |]; cbn [obind snd fst]; try contradiction.
    + destruct B as [B1 [B2 [B3 [c [B4 [B5 B6]]]]]]. assert (keyed sb e) as KE by (exists (ob_creator o), c, (ob_value o); auto). split.
      * apply mappable_node. split; auto. intros N. contradiction.
      * split; [|split].
        -- intros p. simpl. rewrite B4. split.
           ++ intros [<-|[]]. exists e. split; auto. apply reached_here. auto.
           ++ intros [x [R _]]. destruct p as [|i p]; auto. apply reached_child in R. destruct R; contradiction.
        -- simpl. constructor; [intros []|constructor].
        -- intros o' [<-|[]]. exists e, c. rewrite B4, B5. split; auto. split; auto. apply known_context; auto.
    + destruct B as [B1 [B2 [B3 B4]]]. apply DIVE; auto.
    + intros M. apply B. apply mappable_node in M. destruct M as [M _]. apply M. discriminate.
Qed.

End Tree.

(** ** Subsystems *)

Lemma nth_repeat_none : forall n i (x : option (str * str)), nth_error (repeat (@None (str * str)) n) i = Some x -> x = None.
Proof. induction n as [|n IH]; intros [|i] x H; simpl in H; try discriminate; [congruence|eauto]. Qed.

Lemma map_subsystem_spec : forall sb nm cs, sb_virtual sb = false -> few_keys sb -> distinct_keys (sb_maps sb) -> tree_keys (Inst nm KdSubsystem [] cs) ->
  spec_of sb (sub_base sb) (Inst nm KdSubsystem [] cs) (map_subsystem sb cs).
Proof.
  intros sb nm cs V F D T. unfold map_subsystem. rewrite V. set (cx0 := repeat None (List.length (sb_keys sb))).
  assert (cx_wf (sb_keys sb) cx0) as W0.
  { split; [apply repeat_length|]. intros i k v H. apply nth_repeat_none in H. discriminate. }
  assert (forall i v, ~ known cx0 i v) as E0 by (intros i v [k H]; apply nth_repeat_none in H; discriminate).
  pose proof (handle_spec sb (sb_maps sb) cx0 W0 D) as H. destruct (handle_context (sb_keys sb) 0 (sb_maps sb) cx0) as [[[|] cx]| | |]; try contradiction.
  - destruct H as [W [_ K]]. cbn [obind snd]. assert (forall i v, known cx i v <-> sub_base sb i v) as K'.
    { intros i v. rewrite K. unfold extended, sub_base. split; [intros [A|A]; auto; destruct (E0 _ _ A)|auto]. }
    pose proof (map_elem_spec sb (Inst nm KdSubsystem [] cs) cx F W T) as M. rewrite map_elem_eq in M. cbn [obind snd fst] in M.
    unfold spec_of in *. destruct (map_children sb cs 0 cx) as [objs| | |]; auto.
    + destruct M as [M1 [M2 [M3 M4]]]. split; [apply (mappable_ext sb (known cx)); auto|]. split; auto. split; auto. intros o Ho.
      destruct (M4 o Ho) as [x [c [A [B C]]]]. exists x, c. split; auto. split; auto. apply (context_of_ext sb (known cx)); auto.
    + intros N. apply M. apply (mappable_ext sb (sub_base sb)); auto. intros; symmetry; auto.
  - destruct H as [i [k [v [w [_ [_ X]]]]]]. destruct (E0 _ _ X).
Qed.

(** Objects are never one above another. *)
Lemma objects_apart : forall sb base e objs p q, objects_of sb base e objs -> In p (map ob_pos objs) -> In q (map ob_pos objs) -> above p q -> p = q.
Proof.
  intros sb base e objs p q [O _] Hp Hq [r ->]. apply O in Hp, Hq. destruct Hp as [x [[Ax Bx] Kx]], Hq as [y [[Ay By] Ky]].
  destruct r as [|i r]; [rewrite app_nil_r; auto|]. exfalso. apply (By p (i :: r) x); auto. discriminate.
Qed.

(** ** Systems *)

Lemma tree_keys_root : forall nm k cs, (forall c, In c cs -> tree_keys c) -> tree_keys (Inst nm k [] cs).
Proof.
  intros nm k cs H p x E. destruct p as [|i p]; simpl in E.
  - inversion E; subst. intros d [].
  - destruct (nth_error cs i) as [c|] eqn:N; [|discriminate]. apply (H c (nth_error_In _ _ N) p x E).
Qed.

Lemma rank_spec : forall ps p n, match rank p ps n with
  | Some s => exists i, s = n + i /\ nth_error ps i = Some p
  | None => ~ In p ps end.
Proof.
  induction ps as [|q ps IH]; intros p n; simpl; auto. destruct (list_eq_dec Nat.eq_dec q p) as [->|N].
  - exists 0. split; auto.
  - specialize (IH p (S n)). destruct (rank p ps (S n)).
    + destruct IH as [i [-> H]]. exists (S i). split; auto; lia.
    + intros [H|H]; auto.
Qed.

Lemma map_subsystems_nth : forall subs objs, map_subsystems subs = Ok objs ->
  Forall2 (fun s os => map_subsystem (fst s) (snd s) = Ok os) subs objs.
Proof.
  induction subs as [|[sb cs] subs IH]; intros objs H; cbn [map_subsystems] in H.
  - inversion H. constructor.
  - destruct (map_subsystem sb cs) as [a| | |] eqn:A; try discriminate. cbn [obind] in H. destruct (map_subsystems subs) as [b| | |]; try discriminate.
    cbn [obind] in H. inversion H; subst. constructor; auto.
Qed.

Lemma holders_In : forall subs objs n p, Forall2 (fun s os => map_subsystem (fst s) (snd s) = Ok os) subs objs ->
  (In p (holders subs objs n) <-> exists i sb cs os, nth_error subs i = Some (sb, cs) /\ nth_error objs i = Some os /\
     ((sb_virtual sb = true /\ p = [n + i]) \/ (sb_virtual sb = false /\ exists o, In o os /\ p = (n + i) :: ob_pos o))).
Proof.
  intros subs objs n p F. revert n. induction F as [|[sb cs] os subs objs H F IH]; intros n; simpl.
  - split; [intros []|]. intros [i [sb [cs [os [H _]]]]]. destruct i; discriminate.
  - rewrite in_app_iff, IH. split.
    + intros [A|[i [sb' [cs' [os' [A [B C]]]]]]].
      * exists 0, sb, cs, os. rewrite Nat.add_0_r. split; auto. split; auto. destruct (sb_virtual sb).
        -- left. split; auto. destruct A as [A|[]]; auto.
        -- right. split; auto. apply in_map_iff in A. destruct A as [o [A B]]. exists o. auto.
      * exists (S i), sb', cs', os'. rewrite Nat.add_succ_r. split; auto.
    + intros [[|i] [sb' [cs' [os' [A [B C]]]]]]; simpl in A, B.
      * left. inversion A; subst sb' cs'. inversion B; subst os'. rewrite Nat.add_0_r in C. destruct C as [[-> ->]|[-> [o [C ->]]]]; simpl; auto.
        apply in_map_iff. exists o. auto.
      * right. exists i, sb', cs', os'. rewrite Nat.add_succ_r in C. auto.
Qed.

Lemma Forall2_nth_error : forall A B (R : A -> B -> Prop) l l', Forall2 R l l' -> forall i x y, nth_error l i = Some x -> nth_error l' i = Some y -> R x y.
Proof. intros A B R l l' F. induction F; intros [|i] a b Ha Hb; simpl in *; try discriminate; [congruence|eauto]. Qed.

Lemma holders_apart : forall subs objs p q, subs_ok subs -> map_subsystems subs = Ok objs ->
  In p (holders subs objs 0) -> In q (holders subs objs 0) -> above p q -> p = q.
Proof.
  intros subs objs p q OK M Hp Hq [r A]. pose proof (map_subsystems_nth _ _ M) as F. apply holders_In in Hp, Hq; auto.
  destruct Hp as [i [sb [cs [os [A1 [A2 A3]]]]]], Hq as [j [sb' [cs' [os' [B1 [B2 B3]]]]]]. simpl in A3, B3.
  assert (i = j) as <-.
  { destruct A3 as [[_ ->]|[_ [o [_ ->]]]], B3 as [[_ ->]|[_ [o' [_ ->]]]]; simpl in A; congruence. }
  rewrite A1 in B1. inversion B1; subst sb' cs'. rewrite A2 in B2. inversion B2; subst os'.
  destruct A3 as [[V ->]|[V [o [I ->]]]], B3 as [[V' ->]|[V' [o' [I' ->]]]]; try congruence.
  destruct (OK sb cs (nth_error_In _ _ A1)) as [K1 [K2 K3]].
  pose proof (map_subsystem_spec sb [] cs V K1 K2 (tree_keys_root _ _ _ K3)) as S. rewrite (Forall2_nth_error _ _ _ _ _ F i _ _ A1 A2 : map_subsystem sb cs = Ok os) in S.
  destruct S as [_ O]. f_equal. apply (objects_apart _ _ _ _ _ _ O); [apply in_map; auto|apply in_map; auto|]. simpl in A. inversion A. exists r. auto.
Qed.

Lemma holders_NoDup : forall subs objs n, subs_ok subs -> Forall2 (fun s os => map_subsystem (fst s) (snd s) = Ok os) subs objs -> NoDup (holders subs objs n).
Proof.
  intros subs objs n OK F. revert n OK. induction F as [|[sb cs] os subs objs H F IH]; intros n OK; simpl; [constructor|]. apply NoDup_app.
  - destruct (sb_virtual sb) eqn:V; [constructor; [intros []|constructor]|]. destruct (OK sb cs (or_introl eq_refl)) as [K1 [K2 K3]].
    pose proof (map_subsystem_spec sb [] cs V K1 K2 (tree_keys_root _ _ _ K3)) as S. simpl in H. rewrite H in S. destruct S as [_ [_ [N _]]].
    replace (map (fun o => n :: ob_pos o) os) with (map (cons n) (map ob_pos os)) by (rewrite map_map; auto).
    apply FinFun.Injective_map_NoDup; auto. intros x y E. congruence.
  - apply IH. intros s c I. apply OK. right. auto.
  - intros p A B. apply holders_In in B; auto. destruct B as [i [sb' [cs' [os' [_ [_ B]]]]]].
    assert (exists t, p = n :: t) as [t ->].
    { destruct (sb_virtual sb); [destruct A as [<-|[]]; eauto|]. apply in_map_iff in A. destruct A as [o [<- _]]. eauto. }
    destruct B as [[_ B]|[_ [o [_ B]]]]; inversion B; lia.
Qed.
