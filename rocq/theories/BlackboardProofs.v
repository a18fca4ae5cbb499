(** Proofs about the blackboard model. *)
From Coq Require Import List Arith ZArith Bool Ascii String Lia.
From Verif Require Import Base BaseProofs BlackboardModel.
Import ListNotations.

Lemma bb_access_ok_spec : forall bb off n,
  bb_access_ok bb off n = true <-> off + n <= List.length bb.
Proof. intros. unfold bb_access_ok, bb_size. apply Nat.leb_le. Qed.

Lemma bb_access_ok_false : forall bb off n,
  bb_access_ok bb off n = false <-> List.length bb < off + n.
Proof. intros. unfold bb_access_ok, bb_size. apply Nat.leb_gt. Qed.

Lemma bb_access_no_wrap : forall bb off n,
  (Z.of_nat off + Z.of_nat n < 2 ^ 64)%Z ->
  bb_access_ok_64 bb (Z.of_nat off) (Z.of_nat n) = bb_access_ok bb off n.
Proof.
  intros. unfold bb_access_ok_64, bb_access_ok, bb_size.
  rewrite Z.mod_small by lia.
  destruct (off + n <=? List.length bb) eqn:E.
  - apply Nat.leb_le in E. apply Z.leb_le. lia.
  - apply Nat.leb_gt in E. apply Z.leb_gt. lia.
Qed.

Lemma bb_write_Ok : forall bb d off bb',
  bb_write bb d off = Ok bb' <-> off + List.length d <= List.length bb /\ bb' = overwrite bb off d.
Proof.
  intros. unfold bb_write. destruct (bb_access_ok bb off (List.length d)) eqn:E.
  - apply bb_access_ok_spec in E. split; [intros H; inversion H; auto | intros [_ ->]; auto].
  - apply bb_access_ok_false in E. split; [discriminate | lia].
Qed.

Lemma bb_write_fits : forall bb d off,
  off + List.length d <= List.length bb -> bb_write bb d off = Ok (overwrite bb off d).
Proof. intros. apply bb_write_Ok. auto. Qed.

Lemma bb_read_Ok : forall bb n off d,
  bb_read bb n off = Ok d <-> off + n <= List.length bb /\ d = slice bb off n.
Proof.
  intros. unfold bb_read. destruct (bb_access_ok bb off n) eqn:E.
  - apply bb_access_ok_spec in E. split; [intros H; inversion H; auto | intros [_ ->]; auto].
  - apply bb_access_ok_false in E. split; [discriminate | lia].
Qed.

Lemma bb_read_fits : forall bb n off,
  off + n <= List.length bb -> bb_read bb n off = Ok (slice bb off n).
Proof. intros. apply bb_read_Ok. auto. Qed.

Lemma bb_write_int_Ok : forall bb z n off bb',
  bb_write_int bb z n off = Ok bb' <-> off + n <= List.length bb /\ bb' = overwrite bb off (le_encode n z).
Proof. intros. unfold bb_write_int. rewrite bb_write_Ok, le_encode_length. tauto. Qed.

Lemma bb_read_int_Ok : forall bb n off z,
  bb_read_int bb n off = Ok z <-> off + n <= List.length bb /\ z = le_decode (slice bb off n).
Proof.
  intros. unfold bb_read_int, omap, obind, bb_read.
  destruct (bb_access_ok bb off n) eqn:E.
  - apply bb_access_ok_spec in E. split; [intros H; inversion H; auto | intros [_ ->]; auto].
  - apply bb_access_ok_false in E. split; [discriminate | lia].
Qed.

Lemma bb_write_int_fits : forall bb z n off,
  off + n <= List.length bb -> bb_write_int bb z n off = Ok (overwrite bb off (le_encode n z)).
Proof. intros. apply bb_write_int_Ok. auto. Qed.

Lemma bb_read_int_fits : forall bb n off,
  off + n <= List.length bb -> bb_read_int bb n off = Ok (le_decode (slice bb off n)).
Proof. intros. apply bb_read_int_Ok. auto. Qed.

Lemma bb_write_int_read_same : forall bb z n off bb',
  bb_write_int bb z n off = Ok bb' ->
  bb_read_int bb' n off = Ok (z mod 256 ^ Z.of_nat n)%Z.
Proof.
  intros bb z n off bb' H. apply bb_write_int_Ok in H. destruct H as [Hf ->].
  apply bb_read_int_Ok. rewrite overwrite_length by (rewrite le_encode_length; auto).
  split; auto.
  rewrite <- le_decode_encode. f_equal.
  pose proof (slice_overwrite_same bb off (le_encode n z)) as E.
  rewrite le_encode_length in E. rewrite E; auto.
Qed.

Lemma c_string_app : forall s l, ~ In zero s -> c_string (s ++ zero :: l) = Some s.
Proof.
  induction s as [|x s IH]; intros l H; simpl.
  - auto.
  - destruct (char_eqb x zero) eqn:E.
    + apply char_eqb_eq in E. subst. exfalso; apply H; left; auto.
    + rewrite IH; auto. intro; apply H; right; auto.
Qed.

Lemma c_string_Some : forall l s, c_string l = Some s ->
  exists r, l = s ++ zero :: r /\ ~ In zero s.
Proof.
  induction l as [|b l IH]; intros s H; simpl in H; try discriminate.
  destruct (char_eqb b zero) eqn:E.
  - apply char_eqb_eq in E. inversion H; subst. exists l; split; auto.
  - destruct (c_string l) as [s'|] eqn:E'; [|discriminate].
    inversion H; subst. destruct (IH s' eq_refl) as [r [-> Hr]].
    exists r; split; auto. intros [Hb|Hb]; auto. subst. rewrite char_eqb_refl in E; discriminate.
Qed.

Lemma c_string_None : forall l, c_string l = None <-> ~ In zero l.
Proof.
  induction l as [|b l IH]; simpl.
  - split; auto.
  - destruct (char_eqb b zero) eqn:E.
    + apply char_eqb_eq in E. subst. split; [discriminate|]. intros H; exfalso; apply H; auto.
    + apply char_eqb_neq in E. destruct (c_string l) eqn:Ec.
      * split; [discriminate|]. intros H. exfalso. apply H. right.
        apply c_string_Some in Ec. destruct Ec as [r [-> _]]. apply in_or_app; right; left; auto.
      * split; auto. intros _ [H|H]; auto. apply IH in H; auto.
Qed.

Lemma bb_write_string_Ok : forall bb s off bb',
  bb_write_string bb s off = Ok bb' <->
  off + List.length s + 1 <= List.length bb /\ bb' = overwrite bb off (s ++ [zero]).
Proof.
  intros. unfold bb_write_string. destruct (bb_access_ok bb off (List.length s + 1)) eqn:E.
  - apply bb_access_ok_spec in E. split; [intros H; inversion H; split; auto; lia | intros [_ ->]; auto].
  - apply bb_access_ok_false in E. split; [discriminate | lia].
Qed.

Lemma skipn_overwrite_at : forall (bb : blackboard) off d,
  off + List.length d <= List.length bb ->
  skipn off (overwrite bb off d) = d ++ skipn (off + List.length d) bb.
Proof.
  intros. unfold overwrite. rewrite skipn_app.
  rewrite skipn_all2 by (rewrite firstn_length; lia).
  rewrite firstn_length, Nat.min_l, Nat.sub_diag by lia. auto.
Qed.

Lemma bb_write_string_read : forall bb s off bb',
  ~ In zero s -> bb_write_string bb s off = Ok bb' -> bb_read_string bb' off = Ok s.
Proof.
  intros bb s off bb' Hz H. apply bb_write_string_Ok in H. destruct H as [Hf ->].
  unfold bb_read_string.
  assert (Hl : List.length (s ++ [zero]) = List.length s + 1) by (rewrite app_length; auto).
  replace (bb_access_ok _ off 1) with true.
  2: { symmetry. apply bb_access_ok_spec. rewrite overwrite_length; lia. }
  rewrite skipn_overwrite_at by lia.
  rewrite <- app_assoc. simpl. rewrite c_string_app by auto. auto.
Qed.

(** Packaged statements used by the property file. *)
Lemma bb_write_contract : forall bb d off,
  off + List.length d <= List.length bb ->
  exists bb', bb_write_bytes bb d off = Ok bb'
    /\ bb_write bb d off = Ok bb'
    /\ List.length bb' = List.length bb
    /\ bb_read_bytes bb' (List.length d) off = Ok d
    /\ bb_read bb' (List.length d) off = Ok d
    /\ (forall i, i < off \/ off + List.length d <= i -> nth_error bb' i = nth_error bb i).
Proof.
  intros bb d off H. exists (overwrite bb off d).
  assert (bb_access_ok bb off (List.length d) = true) as E by (apply bb_access_ok_spec; auto).
  assert (bb_access_ok (overwrite bb off d) off (List.length d) = true) as E'
      by (apply bb_access_ok_spec; rewrite overwrite_length; auto).
  unfold bb_write_bytes, bb_write, bb_read_bytes, bb_read. rewrite E, E'.
  repeat split; auto.
  - apply overwrite_length; auto.
  - rewrite slice_overwrite_same; auto.
  - rewrite slice_overwrite_same; auto.
  - intros. apply nth_error_overwrite_out; auto.
Qed.

Lemma bb_write_int_contract : forall bb z n off,
  off + n <= List.length bb -> (0 <= z < 256 ^ Z.of_nat n)%Z ->
  exists bb', bb_write_int bb z n off = Ok bb'
    /\ List.length bb' = List.length bb
    /\ bb_read_int bb' n off = Ok z
    /\ (forall i, i < off \/ off + n <= i -> nth_error bb' i = nth_error bb i).
Proof.
  intros bb z n off H Hz. exists (overwrite bb off (le_encode n z)).
  pose proof (bb_write_int_fits bb z n off H) as E. rewrite E.
  repeat split; auto.
  - apply overwrite_length. rewrite le_encode_length; auto.
  - rewrite (bb_write_int_read_same _ _ _ _ _ E). rewrite Z.mod_small; auto.
  - intros. apply nth_error_overwrite_out; rewrite le_encode_length; auto.
Qed.

Lemma bb_write_string_contract : forall bb s off,
  off + List.length s + 1 <= List.length bb -> ~ In zero s ->
  exists bb', bb_write_string bb s off = Ok bb'
    /\ List.length bb' = List.length bb
    /\ bb_read_string bb' off = Ok s
    /\ (forall i, i < off \/ off + List.length s + 1 <= i -> nth_error bb' i = nth_error bb i).
Proof.
  intros bb s off H Hz. exists (overwrite bb off (s ++ [zero])).
  assert (bb_write_string bb s off = Ok (overwrite bb off (s ++ [zero]))) as E
    by (apply bb_write_string_Ok; auto).
  rewrite E.
  assert (Hl : List.length (s ++ [zero]) = List.length s + 1) by (rewrite app_length; auto).
  repeat split; auto.
  - apply overwrite_length. lia.
  - eapply bb_write_string_read; eauto.
  - intros. apply nth_error_overwrite_out; lia.
Qed.

Lemma bb_out_of_range : forall bb off n,
  List.length bb < off + n ->
  (forall d, List.length d = n -> bb_write bb d off = Abort /\ bb_write_bytes bb d off = Abort)
  /\ (forall z, bb_write_int bb z n off = Abort)
  /\ bb_read bb n off = Abort /\ bb_read_bytes bb n off = Abort /\ bb_read_int bb n off = Abort
  /\ (forall s, List.length s + 1 = n -> bb_write_string bb s off = Abort)
  /\ (forall other, List.length other = n ->
         bb_restore_from bb other off = Abort /\ bb_save_to bb other off = Abort).
Proof.
  intros bb off n H. apply bb_access_ok_false in H.
  unfold bb_write_int, bb_read_int, bb_write, bb_write_bytes, bb_read, bb_read_bytes,
    bb_write_string, bb_restore_from, bb_save_to, bb_size.
  repeat split; intros; subst; rewrite ?le_encode_length in *; rewrite ?H; auto.
Qed.

Lemma bb_set_size_length : forall bb n, List.length (bb_set_size bb n) = n.
Proof.
  intros. unfold bb_set_size. rewrite app_length, firstn_length, repeat_length. lia.
Qed.

Lemma bb_save_to_Ok : forall bb to off r,
  bb_save_to bb to off = Ok r <->
  off + List.length to <= List.length bb /\ r = slice bb off (List.length to).
Proof.
  intros. unfold bb_save_to, bb_size. destruct (bb_access_ok bb off (List.length to)) eqn:E.
  - apply bb_access_ok_spec in E. split; [intros H; inversion H; auto | intros [_ ->]; auto].
  - apply bb_access_ok_false in E. split; [discriminate | lia].
Qed.

Lemma bb_restore_from_Ok : forall bb from off r,
  bb_restore_from bb from off = Ok r <->
  off + List.length from <= List.length bb /\ r = overwrite bb off from.
Proof.
  intros. unfold bb_restore_from, bb_size. destruct (bb_access_ok bb off (List.length from)) eqn:E.
  - apply bb_access_ok_spec in E. split; [intros H; inversion H; auto | intros [_ ->]; auto].
  - apply bb_access_ok_false in E. split; [discriminate | lia].
Qed.
