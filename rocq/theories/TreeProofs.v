From Coq Require Import List Arith ZArith Bool Ascii String Lia.
From Verif Require Import Base BaseProofs TextModel TextSpec TextProofs RealModel ParamTypeModel ParamTypeSpec
  BlackboardModel BlackboardProofs IntProofs BitModel BitSpec BitProofs ArrayModel ArraySpec ArrayProofs
  TreeModel TreeSpec.
Import ListNotations.
Local Open Scope nat_scope.

(** ** Positions *)

Lemma elem_at_app : forall p q e, elem_at e (p ++ q) = match elem_at e p with Some c => elem_at c q | None => None end.
Proof.
  induction p as [|i p IH]; intros q e; simpl; auto. destruct (nth_error (e_children e) i); auto.
Qed.

Lemma offset_in_app : forall p q e off c, elem_at e p = Some c ->
  offset_in e (p ++ q) off = offset_in c q (offset_in e p off).
Proof.
  induction p as [|i p IH]; intros q e off c H; simpl in *; [inversion H; auto|].
  destruct (nth_error (e_children e) i); [|discriminate]. apply IH. auto.
Qed.

Lemma offset_app : forall p q e c, elem_at e p = Some c -> offset e (p ++ q) = offset_in c q (offset e p).
Proof. intros. apply offset_in_app. auto. Qed.

Lemma above_dec : forall p q : pos, above p q \/ above q p
  \/ exists r i j p' q', i <> j /\ p = r ++ i :: p' /\ q = r ++ j :: q'.
Proof.
  induction p as [|i p IH]; intros q; [left; exists q; auto|]. destruct q as [|j q]; [right; left; exists (i :: p); auto|].
  destruct (Nat.eq_dec i j) as [<-|H].
  - destruct (IH q) as [[r ->]|[[r ->]|[r [a [b [p' [q' [H [-> ->]]]]]]]]].
    + left. exists r. auto.
    + right. left. exists r. auto.
    + right. right. exists (i :: r), a, b, p', q'. auto.
  - right. right. exists [], i, j, p, q. auto.
Qed.

(** ** Well-formed elements *)

Definition container (k : ekind) : bool :=
  match k with KdSystem | KdSubsystem | KdBlock | KdComponent => true | _ => false end.

Lemma elem_wf_children : forall e i c, elem_wf e = true -> nth_error (e_children e) i = Some c ->
  (container (e_kind e) = true /\ elem_wf c = true)
  \/ (exists b t nm, e_kind e = KdBitBlock b /\ c = Elem nm (KdBit t) [] /\ bit_wf t = true /\ bt_block t = b).
Proof.
  intros [nm k cs] i c H Hn. simpl in *.
  assert (forall n, n && (List.length cs =? 0) = true -> False) as Hleaf.
  { intros n Hc. apply andb_true_iff in Hc. destruct Hc as [_ Hc]. apply Nat.eqb_eq in Hc.
    destruct cs; [destruct i; discriminate|discriminate]. }
  destruct k; try (left; split; auto; rewrite forallb_forall in H; apply H; eapply nth_error_In; eauto; fail);
    try discriminate; try (exfalso; eapply Hleaf; eauto; fail).
  - right. rewrite forallb_forall in H. specialize (H c (nth_error_In _ _ Hn)). unfold bit_child_wf in H.
    destruct c as [n k2 cs2]. destruct k2; try discriminate. destruct cs2; [|discriminate].
    apply andb_true_iff in H. destruct H as [H1 H2]. apply Nat.eqb_eq in H2. eauto 10.
  - exfalso. apply (Hleaf true). auto.
Qed.

(** Elements of a well-formed tree are well-formed, but for the bit parameters. *)
Lemma elem_wf_at : forall p e c, elem_wf e = true -> elem_at e p = Some c ->
  elem_wf c = true \/ (exists t nm, c = Elem nm (KdBit t) [] /\ bit_wf t = true).
Proof.
  induction p as [|i p IH]; intros e c H Hc; simpl in Hc; [inversion Hc; subst; auto|].
  destruct (nth_error (e_children e) i) as [d|] eqn:E; [|discriminate].
  destruct (elem_wf_children e i d H E) as [[_ Hd]|[b [t [nm [_ [-> [Hb _]]]]]]]; [eauto|].
  right. destruct p; simpl in Hc; [inversion Hc; eauto|]. destruct n; discriminate.
Qed.

Lemma footprint_container : forall e, container (e_kind e) = true -> footprint e = list_sum (map footprint (e_children e)).
Proof. intros [nm k cs] H. destruct k; try discriminate; auto. Qed.

Lemma sum_firstn_le : forall cs i c, nth_error cs i = Some c ->
  list_sum (map footprint (firstn i cs)) + footprint c <= list_sum (map footprint cs).
Proof.
  induction cs as [|d cs IH]; intros [|i] c H; simpl in *; try discriminate.
  - inversion H; subst. lia.
  - specialize (IH i c H). lia.
Qed.

Lemma sum_firstn_lt : forall cs i j c, i < j -> nth_error cs i = Some c ->
  list_sum (map footprint (firstn i cs)) + footprint c <= list_sum (map footprint (firstn j cs)).
Proof.
  induction cs as [|d cs IH]; intros [|i] [|j] c Hij H; simpl in *; try discriminate; try lia.
  - inversion H; subst. lia.
  - specialize (IH i j c ltac:(lia) H). lia.
Qed.

Lemma bits_footprint : forall b cs, forallb (bit_child_wf b) cs = true -> list_sum (map footprint cs) = 0.
Proof.
  induction cs as [|c cs IH]; intros H; auto. simpl in H. apply andb_true_iff in H. destruct H as [H1 H2].
  simpl. rewrite IH; auto. destruct c as [n k l]. unfold bit_child_wf in H1. destruct k; try discriminate. auto.
Qed.

Lemma firstn_In : forall A n (l : list A) x, In x (firstn n l) -> In x l.
Proof. intros A n l x H. rewrite <- (firstn_skipn n l). apply in_or_app. auto. Qed.

Lemma bits_offset : forall b cs i, forallb (bit_child_wf b) cs = true -> list_sum (map footprint (firstn i cs)) = 0.
Proof.
  intros b cs i H. apply (bits_footprint b). apply forallb_forall. intros c Hc. rewrite forallb_forall in H. apply H.
  eapply firstn_In; eauto.
Qed.

Lemma inside_in : forall p e c off, elem_wf e = true -> elem_at e p = Some c ->
  off <= offset_in e p off /\ offset_in e p off + footprint c <= off + footprint e.
Proof.
  induction p as [|i p IH]; intros e c off H Hc; simpl in *; [inversion Hc; subst; lia|].
  destruct (nth_error (e_children e) i) as [d|] eqn:E; [|discriminate].
  destruct (elem_wf_children e i d H E) as [[Hk Hd]|[b [t [nm [Hk [-> [Hb Hs]]]]]]].
  - specialize (IH d c (off + list_sum (map footprint (firstn i (e_children e)))) Hd Hc).
    pose proof (sum_firstn_le _ _ _ E). rewrite (footprint_container e Hk). lia.
  - destruct p as [|j p]; simpl in Hc; [|destruct j; discriminate]. inversion Hc; subst c. clear Hc IH.
    destruct e as [en k cs]. simpl in *. subst k. rewrite (bits_offset b) by auto. simpl. lia.
Qed.

(** ** C02 *)

Lemma layout_inside_parent : forall root p r e c, elem_wf root = true -> elem_at root p = Some e ->
  elem_at root (p ++ r) = Some c ->
  offset root p <= offset root (p ++ r) /\ offset root (p ++ r) + footprint c <= offset root p + footprint e.
Proof.
  intros root p r e c Hw Hp Hc. rewrite elem_at_app, Hp in Hc. rewrite (offset_app p r root e Hp).
  destruct (elem_wf_at p root e Hw Hp) as [He|[t [nm [-> Hb]]]].
  - apply inside_in; auto.
  - destruct r as [|i r]; simpl in Hc; [|destruct i; discriminate]. inversion Hc; subst. simpl. lia.
Qed.

Lemma bit_storage : forall root p e t, elem_wf root = true -> elem_at root p = Some e -> e_kind e = KdBit t ->
  exists r i blk, p = r ++ [i] /\ elem_at root r = Some blk /\ e_kind blk = KdBitBlock (bt_block t)
    /\ offset root p = offset root r /\ bit_wf t = true.
Proof.
  intros root p e t Hw Hp Hk. destruct p as [|i0 p0] using rev_ind.
  - simpl in Hp. inversion Hp; subst. destruct e as [nm k cs]. simpl in *. subst k. discriminate.
  - clear IHp0. rewrite elem_at_app in Hp. destruct (elem_at root p0) as [blk|] eqn:E; [|discriminate]. exists p0, i0, blk.
    simpl in Hp. destruct (nth_error (e_children blk) i0) as [d|] eqn:En; [|discriminate]. inversion Hp; subst d.
    destruct (elem_wf_at p0 root blk Hw E) as [Hb|[t' [nm [-> _]]]]; [|destruct i0; discriminate].
    destruct (elem_wf_children blk i0 e Hb En) as [[_ C]|[b [t2 [nm [K1 [K2 [K3 K4]]]]]]].
    + destruct e as [nm k cs]. simpl in *. subst k. discriminate.
    + subst e. simpl in Hk. inversion Hk; subst t2. subst b. do 3 (split; auto).
      split; auto. rewrite (offset_app p0 [i0] root blk E). simpl. rewrite En.
      destruct blk as [bn bk cs]. simpl in *. subst bk. rewrite (bits_offset (bt_block t)); auto.
Qed.

(** Storage of an element: inside the storage of the nearest element that has one. *)
Lemma storage_inside : forall root p e, elem_wf root = true -> elem_at root p = Some e ->
  offset root p + storage_size e <= footprint root.
Proof.
  intros root p e Hw Hp. unfold storage_size. destruct (e_kind e) eqn:K;
    try (pose proof (layout_inside_parent root [] p root e Hw eq_refl Hp) as H; unfold offset in *; simpl in *; lia).
  destruct (bit_storage root p e t Hw Hp K) as [r [i [blk [-> [Hr [Hk [Ho Hb]]]]]]].
  pose proof (layout_inside_parent root [] r root blk Hw eq_refl Hr) as H. unfold offset in *. simpl in *.
  destruct blk as [bn bk cs]. simpl in *. subst bk. simpl in H. lia.
Qed.

Lemma apart_footprints : forall root p q e f, elem_wf root = true -> unrelated p q ->
  elem_at root p = Some e -> elem_at root q = Some f ->
  apart (offset root p) (footprint e) (offset root q) (footprint f).
Proof.
  intros root p q e f Hw [U1 U2] Hp Hq. destruct (above_dec p q) as [A|[A|[r [i [j [p' [q' [Hij [-> ->]]]]]]]]]; try tauto.
  assert (exists c, elem_at root r = Some c) as [c Hc].
  { rewrite elem_at_app in Hp. destruct (elem_at root r); [eauto|discriminate]. }
  rewrite elem_at_app, Hc in Hp, Hq. simpl in Hp, Hq.
  destruct (nth_error (e_children c) i) as [ci|] eqn:Ei; [|discriminate].
  destruct (nth_error (e_children c) j) as [cj|] eqn:Ej; [|discriminate].
  rewrite !(offset_app r _ root c Hc). simpl. rewrite Ei, Ej. set (o := offset root r).
  assert (elem_wf c = true) as Hcw.
  { destruct (elem_wf_at r root c Hw Hc) as [|[t [nm [-> _]]]]; auto. destruct i; discriminate. }
  assert (forall k d p0 g x, nth_error (e_children c) k = Some d -> elem_at d p0 = Some g ->
            x <= offset_in d p0 x /\ offset_in d p0 x + footprint g <= x + footprint d) as IN.
  { intros k d p0 g x Hk Hd. destruct (elem_wf_children c k d Hcw Hk) as [[_ W]|[b [t [nm [_ [-> _]]]]]].
    - apply inside_in; auto.
    - destruct p0 as [|k0 p0]; simpl in Hd; [inversion Hd; subst; simpl; lia|destruct k0; discriminate]. }
  pose proof (IN i ci p' e (o + list_sum (map footprint (firstn i (e_children c)))) Ei Hp) as I1.
  pose proof (IN j cj q' f (o + list_sum (map footprint (firstn j (e_children c)))) Ej Hq) as I2.
  unfold apart. destruct (Nat.lt_ge_cases i j).
  - pose proof (sum_firstn_lt _ i j ci H Ei). lia.
  - pose proof (sum_firstn_lt _ j i cj ltac:(lia) Ej). lia.
Qed.

Lemma storage_footprint : forall e, footprint e <= storage_size e \/ exists t, e_kind e = KdBit t.
Proof. intros [nm k cs]. unfold storage_size. destruct k; simpl; auto. right. eauto. Qed.

Lemma unrelated_sym : forall p q, unrelated p q -> unrelated q p.
Proof. unfold unrelated. tauto. Qed.

Lemma unrelated_block : forall r i q (p : pos), p = r ++ [i] -> unrelated p q -> unrelated r q
  \/ above r q.
Proof.
  intros r i q p -> [U1 U2]. destruct (above_dec r q) as [A|[[s ->]|[s [a [b [p' [q' [H [-> ->]]]]]]]]]; auto.
  - exfalso. apply U2. exists (s ++ [i]). rewrite app_assoc. auto.
  - left. split; intros [w Hw]; rewrite <- app_assoc in Hw; apply app_inv_head in Hw; simpl in Hw; inversion Hw; congruence.
Qed.

(** A bit block has only bit parameters below it. *)
Lemma below_block : forall root r b blk q f, elem_wf root = true -> elem_at root r = Some blk -> e_kind blk = KdBitBlock b ->
  above r q -> elem_at root q = Some f -> q = r \/ exists j t, q = r ++ [j] /\ e_kind f = KdBit t.
Proof.
  intros root r b blk q f Hw Hr Hk [s ->] Hq. destruct s as [|j s]; [left; apply app_nil_r|]. right.
  rewrite elem_at_app, Hr in Hq. simpl in Hq. destruct (nth_error (e_children blk) j) as [d|] eqn:E; [|discriminate].
  destruct (elem_wf_at r root blk Hw Hr) as [W|[t [nm [-> _]]]]; [|discriminate].
  destruct (elem_wf_children blk j d W E) as [[C _]|[b' [t [nm [_ [-> _]]]]]]; [rewrite Hk in C; discriminate|].
  destruct s as [|k s]; simpl in Hq; [inversion Hq; subst f; exists j, t; auto|destruct k; discriminate].
Qed.

Lemma apart_storage : forall root p q e f, elem_wf root = true -> unrelated p q -> ~ same_block root p q ->
  elem_at root p = Some e -> elem_at root q = Some f ->
  apart (offset root p) (storage_size e) (offset root q) (storage_size f).
Proof.
  intros root p q e f Hw U NB Hp Hq.
  (* replace each bit parameter by its block *)
  assert (forall p e, elem_at root p = Some e ->
    exists p' e', elem_at root p' = Some e' /\ offset root p' = offset root p /\ footprint e' = storage_size e
      /\ (p' = p \/ exists i t, p = p' ++ [i] /\ e_kind e = KdBit t /\ e_kind e' = KdBitBlock (bt_block t))) as REP.
  { intros p0 e0 H0. unfold storage_size. destruct (e_kind e0) eqn:K;
      try (exists p0, e0; do 3 (split; auto); rewrite K; auto; fail).
    destruct (bit_storage root p0 e0 t Hw H0 K) as [r [i [blk [-> [Hr [Hk [Ho Hb]]]]]]].
    exists r, blk. split; auto. split; auto. split; [destruct blk; simpl in *; subst; auto|eauto 10]. }
  destruct (REP p e Hp) as [p' [e' [P1 [P2 [P3 P4]]]]]. destruct (REP q f Hq) as [q' [f' [Q1 [Q2 [Q3 Q4]]]]].
  rewrite <- P2, <- Q2, <- P3, <- Q3. apply apart_footprints; auto.
  destruct P4 as [->|[i [t [-> [K1 K2]]]]]; destruct Q4 as [->|[j [u [-> [L1 L2]]]]]; auto.
  - apply unrelated_sym. destruct (unrelated_block q' j p _ eq_refl (unrelated_sym _ _ U)) as [|A]; auto.
    destruct (below_block root q' _ f' p e Hw Q1 L2 A Hp) as [->|[k [t [-> K]]]].
    + exfalso. apply (proj1 U). exists [j]. auto.
    + exfalso. apply NB. exists q', k, j, e, f, t, u. auto 10.
  - destruct (unrelated_block p' i q _ eq_refl U) as [|A]; auto.
    destruct (below_block root p' _ e' q f Hw P1 K2 A Hq) as [->|[k [u [-> K]]]].
    + exfalso. apply (proj2 U). exists [i]. auto.
    + exfalso. apply NB. exists p', i, k, e, f, t, u. auto 10.
  - destruct (unrelated_block p' i (q' ++ [j]) _ eq_refl U) as [U2|A].
    + apply unrelated_sym. destruct (unrelated_block q' j p' _ eq_refl (unrelated_sym _ _ U2)) as [|A2]; auto.
      destruct (below_block root q' _ f' p' e' Hw Q1 L2 A2 P1) as [->|[k [u' [-> K]]]].
      * exfalso. apply (proj1 U2). exists [j]. auto.
      * rewrite K in K2. discriminate.
    + destruct (below_block root p' _ e' (q' ++ [j]) f Hw P1 K2 A Hq) as [E|[k [u' [E K]]]].
      * exfalso. rewrite <- E in U. apply (proj2 U). exists [i]. auto.
      * apply app_inj_tail in E. destruct E as [-> ->]. exfalso. apply NB. exists p', i, k, e, f, t, u. auto 10.
Qed.

(** ** C37: paths *)

(** Path names from the root of [e] to the element at [p]. *)
Fixpoint names_on (e : elem) (p : pos) : list str :=
  path_name e :: match p with
                 | [] => []
                 | i :: r => match nth_error (e_children e) i with Some c => names_on c r | None => [] end
                 end.

Lemma kind_text_nonempty : forall k, kind_text k <> [].
Proof. intros k. destruct k; try destruct t; discriminate. Qed.

Lemma path_name_nonempty : forall e, path_name e <> [].
Proof. intros e. unfold path_name. destruct (e_name e); [apply kind_text_nonempty|discriminate]. Qed.

Lemma path_in_runs : forall p e, (forall q c, elem_at e q = Some c -> ~ In "/"%char (path_name c)) ->
  elem_at e p <> None ->
  exists body, path_in e p = "/"%char :: body /\ runs (lit "/") body (names_on e p).
Proof.
  induction p as [|i p IH]; intros e Hs Hp.
  - exists (path_name e). simpl. rewrite app_nil_r. split; auto. apply (runs_last (lit "/") []).
    + intros c [].
    + apply path_name_nonempty.
    + intros c Hc [<-|[]]. apply (Hs [] e eq_refl Hc).
  - simpl in *. destruct (nth_error (e_children e) i) as [c|] eqn:E; [|congruence].
    destruct (IH c) as [body [B1 B2]]; auto.
    { intros q d Hd. apply (Hs (i :: q)). simpl. rewrite E. auto. }
    exists (path_name e ++ "/"%char :: body). rewrite B1. split; auto.
    apply (runs_cons (lit "/") [] (path_name e) "/"%char); auto.
    + intros x [].
    + apply path_name_nonempty.
    + intros x Hx [<-|[]]. apply (Hs [] e eq_refl Hx).
    + left. auto.
Qed.

Lemma runs_slash : forall ds d s ts, In d ds -> runs ds s ts -> runs ds (d :: s) ts.
Proof.
  intros ds d s ts Hd H. inversion H; subst.
  - apply runs_none. intros c [<-|Hc]; auto.
  - apply (runs_last ds (d :: g)); auto. intros c [<-|Hc]; auto.
  - apply (runs_cons ds (d :: g)); auto. intros c [<-|Hc]; auto.
Qed.

Lemma path_items_in : forall p e, (forall q c, elem_at e q = Some c -> ~ In "/"%char (path_name c)) ->
  elem_at e p <> None -> path_items (path_in e p) = Some (names_on e p).
Proof.
  intros p e Hs Hp. destruct (path_in_runs p e Hs Hp) as [body [-> H]]. unfold path_items.
  change (char_eqb "/" "/") with true. cbv iota. f_equal. apply split_merge_spec. apply runs_slash; auto. left. auto.
Qed.

Lemma find_index_first : forall cs i c, nth_error cs i = Some c ->
  (forall j d, nth_error cs j = Some d -> path_name d = path_name c -> i <= j) ->
  find_index (path_name c) cs = Some i.
Proof.
  induction cs as [|d cs IH]; intros [|i] c H Hf; simpl in *; try discriminate.
  - inversion H; subst. rewrite str_eqb_refl. auto.
  - destruct (str_eqb (path_name d) (path_name c)) eqn:E.
    + apply str_eqb_eq in E. specialize (Hf 0 d eq_refl E). lia.
    + rewrite (IH i c H); auto. intros j x Hx Hn. specialize (Hf (S j) x Hx Hn). lia.
Qed.

Lemma find_index_sound : forall cs nm i, find_index nm cs = Some i ->
  exists c, nth_error cs i = Some c /\ path_name c = nm
    /\ forall j d, j < i -> nth_error cs j = Some d -> path_name d <> nm.
Proof.
  induction cs as [|d cs IH]; intros nm i H; simpl in H; [discriminate|].
  destruct (str_eqb (path_name d) nm) eqn:E.
  - inversion H; subst. apply str_eqb_eq in E. exists d. split; auto. split; auto. intros; lia.
  - destruct (find_index nm cs) as [k|] eqn:Ek; [|discriminate]. inversion H; subst.
    destruct (IH nm k Ek) as [c [H1 [H2 H3]]]. exists c. split; auto. split; auto.
    intros [|j] x Hj Hx; [simpl in Hx; inversion Hx; subst; apply str_eqb_neq; auto|]. apply (H3 j x); auto. lia.
Qed.

Lemma find_desc_names : forall p e, elem_at e p <> None ->
  (forall q g i j c d, elem_at e q = Some g -> nth_error (e_children g) i = Some c -> nth_error (e_children g) j = Some d ->
     path_name c = path_name d -> i = j) ->
  find_desc e (tl (names_on e p)) = Some p.
Proof.
  induction p as [|i p IH]; intros e Hp Hu; simpl in *; auto.
  destruct (nth_error (e_children e) i) as [c|] eqn:E; [|congruence].
  assert (names_on c p = path_name c :: tl (names_on c p)) as -> by (destruct p; auto). simpl.
  rewrite (find_index_first _ i c E).
  - rewrite E, IH; auto. intros q g a b x y Hg. apply (Hu (i :: q) g). simpl. rewrite E. auto.
  - intros j d Hd Hn. assert (i = j); [|lia]. eapply (Hu [] e); eauto.
Qed.

Lemma locate_path : forall root p, names_ok root -> elem_at root p <> None -> locate root (path_in root p) = Some p.
Proof.
  intros root p [H0 [H1 H2]] Hp. unfold locate. rewrite path_items_in by auto.
  assert (names_on root p = path_name root :: tl (names_on root p)) as -> by (destruct p; auto).
  assert (path_name root = e_name root) as -> by (unfold path_name; destruct (e_name root); congruence).
  rewrite str_eqb_refl. apply find_desc_names; auto.
Qed.

Lemma find_desc_sound : forall items e p, find_desc e items = Some p ->
  elem_at e p <> None /\ tl (names_on e p) = items.
Proof.
  induction items as [|nm r IH]; intros e p H; simpl in H.
  - inversion H; subst. simpl. split; [discriminate|auto].
  - destruct (find_index nm (e_children e)) as [i|] eqn:E; [|discriminate].
    destruct (nth_error (e_children e) i) as [c|] eqn:Ec; [|discriminate].
    destruct (find_desc c r) as [q|] eqn:Eq; [|discriminate]. inversion H; subst p. simpl. rewrite Ec.
    destruct (IH c q Eq) as [H1 H2]. split; auto. apply find_index_sound in E. destruct E as [c' [E1 [E2 _]]].
    assert (names_on c q = path_name c :: tl (names_on c q)) as -> by (destruct q; auto).
    rewrite H2. congruence.
Qed.

Lemma locate_sound : forall root path p, locate root path = Some p ->
  elem_at root p <> None
  /\ exists body, path = "/"%char :: body /\ runs (lit "/") path (e_name root :: tl (names_on root p)).
Proof.
  intros root path p H. unfold locate in H. destruct (path_items path) as [[|nm items]|] eqn:E; try discriminate.
  destruct (str_eqb nm (e_name root)) eqn:En; [|discriminate]. apply str_eqb_eq in En. subst nm.
  destruct (find_desc_sound items root p H) as [H1 H2]. split; auto. unfold path_items in E.
  destruct path as [|c body]; [discriminate|]. destruct (char_eqb c "/") eqn:Ec; [|discriminate].
  apply char_eqb_eq in Ec. subst c. exists body. split; auto. inversion E as [E']. apply split_merge_spec in E'.
  rewrite H2. auto.
Qed.

(** A path of a parameter given to an access command. *)
Lemma walk_names : forall p e c, elem_at e p = Some c -> is_param (e_kind c) = true -> elem_wf e = true ->
  (forall q g i j x y, elem_at e q = Some g -> nth_error (e_children g) i = Some x -> nth_error (e_children g) j = Some y ->
     path_name x = path_name y -> i = j) ->
  forall rest, walk e (tl (names_on e p) ++ rest) = Some (p, rest).
Proof.
  induction p as [|i p IH]; intros e c Hc Hk Hw Hu rest; simpl in Hc.
  - inversion Hc; subst c. simpl. destruct rest; simpl; rewrite Hk; auto.
  - cbn [names_on tl]. destruct (nth_error (e_children e) i) as [d|] eqn:E; [|discriminate].
    assert (names_on d p = path_name d :: tl (names_on d p)) as -> by (destruct p; auto). cbn [app walk].
    assert (is_param (e_kind e) = false) as ->.
    { destruct (elem_wf_children e i d Hw E) as [[K _]|[b [t [nm [K _]]]]].
      - destruct (e_kind e); try discriminate; auto.
      - rewrite K. auto. }
    rewrite (find_index_first _ i d E); [|intros j x Hx Hn; assert (i = j); [eapply (Hu [] e); eauto|lia]].
    rewrite E. destruct (elem_wf_children e i d Hw E) as [[_ Hd]|[b [t [nm [K [-> _]]]]]].
    + rewrite (IH d c Hc Hk Hd); auto. intros q g a b x y Hg. apply (Hu (i :: q) g). simpl. rewrite E. auto.
    + destruct p as [|k p]; simpl in Hc; [|destruct k; discriminate]. destruct rest; auto.
Qed.

Lemma param_of_path : forall root p e, names_ok root -> elem_wf root = true -> param_at root p e ->
  param_of root (path_in root p) = Some (p, []).
Proof.
  intros root p e [H0 [H1 H2]] Hw [Hp Hk]. unfold param_of. rewrite path_items_in by (auto; congruence).
  assert (names_on root p = path_name root :: tl (names_on root p)) as -> by (destruct p; auto).
  assert (path_name root = e_name root) as -> by (unfold path_name; destruct (e_name root); congruence).
  rewrite str_eqb_refl. rewrite <- (app_nil_r (tl (names_on root p))). eapply walk_names; eauto.
Qed.

Lemma walk_sound : forall items e p rest, walk e items = Some (p, rest) ->
  exists c, elem_at e p = Some c /\ is_param (e_kind c) = true.
Proof.
  assert (forall e items, is_param (e_kind e) = true -> walk e items = Some ([], items)) as H0.
  { intros e [|x l] H; simpl; rewrite H; auto. }
  induction items as [|nm r IH]; intros e p rest H; destruct (is_param (e_kind e)) eqn:K.
  - rewrite H0 in H by auto. inversion H; subst. exists e. auto.
  - simpl in H. rewrite K in H. discriminate.
  - rewrite H0 in H by auto. inversion H; subst. exists e. auto.
  - simpl in H. rewrite K in H. destruct (find_index nm (e_children e)) as [i|]; [|discriminate].
    destruct (nth_error (e_children e) i) as [c|] eqn:E; [|discriminate].
    destruct (walk c r) as [[q s]|] eqn:W; [|discriminate]. inversion H; subst. simpl. rewrite E. eauto.
Qed.

Lemma param_of_sound : forall root path p rest, param_of root path = Some (p, rest) -> exists e, param_at root p e.
Proof.
  intros root path p rest H. unfold param_of in H. destruct (path_items path) as [[|nm items]|]; try discriminate.
  destruct (str_eqb nm (e_name root)); [|discriminate]. eapply walk_sound; eauto.
Qed.

(** ** C03: effect of a set on the memory *)

Lemma param_no_children : forall e, elem_wf e = true -> is_param (e_kind e) = true -> e_children e = [].
Proof.
  intros [nm k cs] H Hk. destruct cs as [|c cs]; auto. exfalso.
  destruct (elem_wf_children (Elem nm k (c :: cs)) 0 c H eq_refl) as [[C _]|[b [t [n [C _]]]]]; simpl in *;
    [destruct k; discriminate|subst k; discriminate].
Qed.

Lemma params_unrelated : forall root p q e f, elem_wf root = true -> param_at root p e -> param_at root q f ->
  p <> q -> unrelated p q.
Proof.
  assert (forall root p q e f, elem_wf root = true -> param_at root p e -> elem_at root q = Some f -> p <> q -> ~ above p q) as H.
  { intros root p q e f Hw [Hp Kp] Hq Hne [r ->]. rewrite elem_at_app, Hp in Hq. destruct r as [|i r].
    - rewrite app_nil_r in Hne. auto.
    - assert (e_children e = []) as C.
      { destruct (elem_wf_at p root e Hw Hp) as [W|[t [nm [-> _]]]]; auto. apply param_no_children; auto. }
      simpl in Hq. rewrite C in Hq. destruct i; discriminate. }
  intros root p q e f Hw Hp Hq Hne. split; [eapply H; eauto; apply Hq|].
  eapply (H root q p); eauto; apply Hp.
Qed.

(** Kinds of the parameters of a well-formed structure. *)
Definition kind_wf (k : ekind) : Prop :=
  match k with
  | KdParam t => pt_wf t = true
  | KdArray t len => pt_wf t = true /\ 1 <= len
  | KdBit t => bit_wf t = true
  | KdString _ => True
  | _ => False
  end.

Lemma param_kind_wf : forall root p e, elem_wf root = true -> param_at root p e -> kind_wf (e_kind e).
Proof.
  intros root p e Hw [Hp Hk]. destruct (elem_wf_at p root e Hw Hp) as [W|[t [nm [-> Hb]]]]; auto.
  destruct e as [nm k cs]. simpl in *. destruct k; try discriminate; simpl in *;
    repeat (apply andb_true_iff in W; destruct W as [W ?]); auto. split; auto. apply Nat.leb_le. auto.
Qed.

Definition size_of_kind (k : ekind) : nat :=
  match k with
  | KdParam t => pt_size t
  | KdArray t len => array_footprint t len
  | KdString max => string_size max
  | KdBit t => bt_block t
  | _ => 0
  end.

Lemma storage_size_kind : forall e, is_param (e_kind e) = true -> storage_size e = size_of_kind (e_kind e).
Proof. intros [nm k cs] H. destruct k; try discriminate; auto. Qed.

Lemma committed_cases : forall bb o ok bb', committed bb o = Ok (ok, bb') ->
  (ok = true /\ o = Ok bb') \/ (ok = false /\ o = Err /\ bb' = bb).
Proof. intros bb o ok bb' H. destruct o; simpl in H; inversion H; auto. Qed.

Lemma param_set_str_cases : forall t f s off bb, off + pt_size t <= List.length bb ->
  param_set_str t f s off bb = Err
  \/ exists bb', param_set_str t f s off bb = Ok bb' /\ List.length bb' = List.length bb
       /\ (forall i, i < off \/ off + pt_size t <= i -> nth_error bb' i = nth_error bb i).
Proof.
  intros t f s off bb H. unfold param_set_str. destruct (to_bb_str_cases t f s) as [[u E]|E]; rewrite E; cbn [obind]; auto.
  right. destruct (write_read_word bb u (pt_size t) off H) as [bb' [W1 [W2 [_ W3]]]]. eauto.
Qed.

Lemma bitparam_set_str_cases : forall t s off bb, bit_wf t = true -> off + bt_block t <= List.length bb ->
  bitparam_set_str t s off bb = Err \/ exists bb', bitparam_set_str t s off bb = Ok bb'.
Proof.
  intros t s off bb Hw H. unfold bitparam_set_str. rewrite read_int_fits by auto. cbn [obind]. unfold bit_to_bb_str, bit_to_bb.
  destruct (strtoull0 s >? bt_max t)%Z; cbn [obind]; auto. right. eexists. apply bb_write_int_fits. auto.
Qed.

(** Whatever the request, only the storage of the parameter may change; a refused request changes nothing, but for
    arrays. *)
Lemma leaf_set_frame : forall k f rest s off bb, kind_wf k -> off + size_of_kind k <= List.length bb ->
  exists ok bb', leaf_set k f rest s off 0 bb = Ok (ok, bb')
    /\ List.length bb' = List.length bb
    /\ (forall i, i < off \/ off + size_of_kind k <= i -> nth_error bb' i = nth_error bb i)
    /\ (ok = false -> (forall t len, k <> KdArray t len) -> bb' = bb).
Proof.
  intros k f rest s off bb Hk Hb. unfold leaf_set. rewrite Nat.sub_0_r.
  assert (forall A : Prop, exists ok bb', Ok (false, bb) = Ok (ok, bb') /\ List.length bb' = List.length bb
    /\ (forall i, A -> nth_error bb' i = nth_error bb i) /\ (ok = false -> (forall t len, k <> KdArray t len) -> bb' = bb)) as HF.
  { intros A. exists false, bb. auto. }
  destruct k; try contradiction; simpl in *.
  - destruct rest as [|x r]; [|exists false, bb; auto].
    destruct (bitparam_set_str_cases t s off bb Hk Hb) as [E|[bb' E]]; rewrite E; simpl; [exists false, bb; auto|].
    destruct (bit_set_any_text t s off bb bb' Hk Hb E) as [v [_ [[E1 [E2 _]] _]]].
    exists true, bb'. do 3 (split; auto). discriminate.
  - destruct rest as [|x r]; [|exists false, bb; auto].
    destruct (param_set_str_cases t f s off bb Hb) as [E|[bb' [E [L F]]]]; rewrite E; simpl; [exists false, bb; auto|].
    exists true, bb'. do 3 (split; auto). discriminate.
  - unfold array_access_set. rewrite Nat.sub_0_r. destruct Hk as [Hw Hl].
    assert (off + len * pt_size t <= List.length bb) as Hb' by (unfold array_footprint in Hb; lia).
    assert (forall start, start <= len -> exists ok bb', array_set_text t len f start off s bb = Ok (ok, bb')
      /\ List.length bb' = List.length bb /\ (forall i, i < off \/ off + array_footprint t len <= i -> nth_error bb' i = nth_error bb i)
      /\ (ok = false -> (forall t' len', KdArray t len <> KdArray t' len') -> bb' = bb)) as HA.
    { intros start Hs. destruct (array_set_text_frame t len f start off s bb Hs Hb') as [ok [bb' [E [L F]]]].
      exists ok, bb'. split; auto. split; auto. split; [|intros _ C; exfalso; eapply C; eauto].
      intros i Hi. apply F. unfold array_footprint in Hi. nia. }
    unfold array_index. destruct rest as [|it more]; [apply HA; lia|].
    destruct (stream_int 10 t_uint64 it) as [[v r]|]; [|exists false, bb; auto].
    destruct (Z.leb_spec (Z.of_nat len) v); [exists false, bb; auto|].
    destruct more; [|exists false, bb; auto]. apply HA. lia.
  - destruct rest as [|x r]; [|exists false, bb; auto]. destruct (string_set_spec max s off bb Hb) as [H1 H2].
    destruct (Nat.le_gt_cases (List.length s) max) as [Hl|Hl].
    + destruct (H1 Hl) as [bb' [E [L [_ F]]]]. rewrite E. simpl. exists true, bb'. split; auto. split; auto.
      split; [|discriminate]. intros i Hi. apply F. unfold string_size in Hi. lia.
    + rewrite (H2 Hl). simpl. exists false, bb; auto.
Qed.

(** ** Reading depends on the storage of the parameter only *)

(** The same bytes in two places. *)
Definition same_bytes (o1 : nat) (bb1 : blackboard) (o2 : nat) (bb2 : blackboard) (n : nat) : Prop :=
  o1 + n <= List.length bb1 /\ o2 + n <= List.length bb2
  /\ forall i, i < n -> nth_error bb1 (o1 + i) = nth_error bb2 (o2 + i).

Lemma same_bytes_sub : forall o1 b1 o2 b2 n d m, same_bytes o1 b1 o2 b2 n -> d + m <= n ->
  same_bytes (o1 + d) b1 (o2 + d) b2 m.
Proof.
  intros o1 b1 o2 b2 n d m [H1 [H2 H3]] H. split; [lia|]. split; [lia|]. intros i Hi.
  rewrite <- !Nat.add_assoc. apply H3. lia.
Qed.

Lemma same_bytes_sym : forall o1 b1 o2 b2 n, same_bytes o1 b1 o2 b2 n -> same_bytes o2 b2 o1 b1 n.
Proof. intros o1 b1 o2 b2 n [H1 [H2 H3]]. split; auto. split; auto. intros i Hi. symmetry. auto. Qed.

Lemma same_bytes_trans : forall o1 b1 o2 b2 o3 b3 n, same_bytes o1 b1 o2 b2 n -> same_bytes o2 b2 o3 b3 n ->
  same_bytes o1 b1 o3 b3 n.
Proof.
  intros o1 b1 o2 b2 o3 b3 n [H1 [H2 H3]] [H4 [H5 H6]]. split; auto. split; auto. intros i Hi. rewrite H3; auto.
Qed.

Lemma read_int_same : forall o1 b1 o2 b2 n, same_bytes o1 b1 o2 b2 n -> bb_read_int b1 n o1 = bb_read_int b2 n o2.
Proof.
  intros o1 b1 o2 b2 n [H1 [H2 H3]]. rewrite !read_int_fits by auto. do 2 f_equal. apply slice_ext. auto.
Qed.

Lemma param_get_same : forall t f o1 b1 o2 b2, same_bytes o1 b1 o2 b2 (pt_size t) ->
  param_get_str t f o1 b1 = param_get_str t f o2 b2.
Proof. intros t f o1 b1 o2 b2 H. unfold param_get_str. rewrite (read_int_same _ _ _ _ _ H). auto. Qed.

Lemma array_get_list_same : forall t f n o1 b1 o2 b2, same_bytes o1 b1 o2 b2 (n * pt_size t) ->
  array_get_list t f n o1 b1 = array_get_list t f n o2 b2.
Proof.
  intros t f n. induction n as [|n IH]; intros o1 b1 o2 b2 H; auto. cbn [array_get_list].
  pose proof (same_bytes_sub _ _ _ _ _ 0 (pt_size t) H ltac:(simpl; lia)) as S0. rewrite !Nat.add_0_r in S0.
  rewrite (param_get_same t f o1 b1 o2 b2 S0). pose proof (same_bytes_sub _ _ _ _ _ (pt_size t) (n * pt_size t) H ltac:(simpl; lia)) as S1.
  rewrite (IH _ _ _ _ S1). auto.
Qed.

Lemma string_get_same : forall max o1 b1 o2 b2, same_bytes o1 b1 o2 b2 (string_size max) -> terminated max o1 b1 ->
  string_get o1 b1 = string_get o2 b2.
Proof.
  intros max o1 b1 o2 b2 S T.
  assert (terminated max o2 b2) as T2.
  { destruct T as [i [Hi H]]. destruct S as [S1 [S2 S3]]. exists i. split; auto. rewrite <- S3; auto. unfold string_size. lia. }
  destruct (string_get_terminated max o1 b1 T) as [s1 [E1 [L1 [Z1 Q1]]]].
  destruct (string_get_terminated max o2 b2 T2) as [s2 [E2 [L2 [Z2 Q2]]]].
  rewrite E1, E2. f_equal.
  assert (slice b1 o1 (string_size max) = slice b2 o2 (string_size max)) as Sl by (apply slice_ext; apply S).
  unfold slice in *. 
  assert (forall s l, List.length s <= max -> firstn (List.length s + 1) l = s ++ [zero] -> exists r, firstn (string_size max) l = s ++ zero :: r) as F.
  { intros s l Hl H. exists (skipn (List.length s + 1) (firstn (string_size max) l)).
    rewrite <- (firstn_skipn (List.length s + 1) (firstn (string_size max) l)) at 1.
    rewrite firstn_firstn, Nat.min_l by (unfold string_size; lia). rewrite H, <- app_assoc. auto. }
  destruct (F s1 _ L1 Q1) as [r1 F1]. destruct (F s2 _ L2 Q2) as [r2 F2].
  assert (s1 ++ zero :: r1 = s2 ++ zero :: r2) as E by congruence.
  pose proof (c_string_app s1 r1 Z1) as C1. pose proof (c_string_app s2 r2 Z2) as C2. rewrite E in C1. congruence.
Qed.

Lemma leaf_get_same : forall k f rest o1 b1 o2 b2, kind_wf k -> same_bytes o1 b1 o2 b2 (size_of_kind k) ->
  (forall max, k = KdString max -> terminated max o1 b1) ->
  leaf_get k f rest o1 0 b1 = leaf_get k f rest o2 0 b2.
Proof.
  intros k f rest o1 b1 o2 b2 W S T. unfold leaf_get. rewrite !Nat.sub_0_r. destruct k; auto; simpl in S.
  - destruct rest; auto. unfold bitparam_get_str. rewrite (read_int_same _ _ _ _ _ S). auto.
  - destruct rest; auto. apply param_get_same; auto.
  - unfold array_access_get, array_get_text. rewrite !Nat.sub_0_r. unfold array_footprint in S.
    rewrite Nat.mul_comm in S. rewrite (array_get_list_same t f len o1 b1 o2 b2 S).
    unfold array_index. destruct rest as [|it more]; auto.
    destruct (stream_int 10 t_uint64 it) as [[v r]|]; auto. destruct (Z.leb_spec (Z.of_nat len) v); auto.
    destruct more; auto. cbn [obind]. apply param_get_same.
    apply (same_bytes_sub _ _ _ _ _ _ _ S).
    destruct W as [_ W]. assert (Z.to_nat v < len) by lia. nia.
  - destruct rest; auto. eapply string_get_same; eauto.
Qed.

(** ** Setting a parameter of the structure *)

Lemma param_storage_fits : forall root p e, elem_wf root = true -> param_at root p e ->
  offset root p + size_of_kind (e_kind e) <= footprint root.
Proof.
  intros root p e Hw [Hp Hk]. rewrite <- (storage_size_kind e Hk). apply storage_inside; auto.
Qed.

Lemma access_set_total : forall root f path s bb, elem_wf root = true -> List.length bb = footprint root ->
  exists ok bb', access_set root f path s 0 bb = Ok (ok, bb') /\ List.length bb' = List.length bb
    /\ (ok = false -> (forall p rest e t len, param_of root path = Some (p, rest) -> elem_at root p = Some e ->
          e_kind e <> KdArray t len) -> bb' = bb)
    /\ (param_of root path = None -> ok = false).
Proof.
  intros root f path s bb Hw Hl. unfold access_set. destruct (param_of root path) as [[p rest]|] eqn:E.
  - destruct (param_of_sound root path p rest E) as [e He]. pose proof He as [Hp Hk]. rewrite Hp.
    destruct (leaf_set_frame (e_kind e) f rest s (offset root p) bb (param_kind_wf root p e Hw He)) as [ok [bb' [S1 [S2 [S3 S4]]]]].
    { rewrite Hl. apply param_storage_fits; auto. }
    exists ok, bb'. split; auto. split; auto. split; [|discriminate]. intros H1 H2. apply S4; auto.
    intros t len. eapply H2; eauto.
  - exists false, bb. auto.
Qed.

Lemma access_set_frame : forall root f path s bb ok bb' p rest e, elem_wf root = true -> List.length bb = footprint root ->
  param_of root path = Some (p, rest) -> elem_at root p = Some e -> access_set root f path s 0 bb = Ok (ok, bb') ->
  forall i, i < offset root p \/ offset root p + storage_size e <= i -> nth_error bb' i = nth_error bb i.
Proof.
  intros root f path s bb ok bb' p rest e Hw Hl Hp He Hs. destruct (param_of_sound root path p rest Hp) as [e' [He' Hk]].
  rewrite He in He'. inversion He'; subst e'. unfold access_set in Hs. rewrite Hp, He in Hs.
  destruct (leaf_set_frame (e_kind e) f rest s (offset root p) bb) as [ok' [b2 [S1 [S2 [S3 S4]]]]].
  - eapply param_kind_wf; eauto. split; eauto.
  - rewrite Hl. apply param_storage_fits; auto. split; auto.
  - rewrite Hs in S1. inversion S1; subst. rewrite storage_size_kind; auto.
Qed.

Lemma leaf_set_string_terminated : forall max f rest s off bb ok bb', leaf_set (KdString max) f rest s off 0 bb = Ok (ok, bb') ->
  terminated max off bb -> terminated max off bb'.
Proof.
  intros max f rest s off bb ok bb' H T. unfold leaf_set in H. rewrite Nat.sub_0_r in H.
  destruct rest; [|inversion H; subst; auto]. apply committed_cases in H. destruct H as [[_ H]|[_ [_ ->]]]; auto.
  eapply string_set_terminated; eauto.
Qed.

Lemma apart_same_bytes : forall o1 n1 o2 n2 (bb bb' : blackboard), apart o1 n1 o2 n2 -> o2 + n2 <= List.length bb ->
  List.length bb' = List.length bb ->
  (forall i, i < o1 \/ o1 + n1 <= i -> nth_error bb' i = nth_error bb i) -> same_bytes o2 bb' o2 bb n2.
Proof.
  intros o1 n1 o2 n2 bb bb' A H L F. split; [lia|]. split; auto. intros i Hi. apply F. destruct A; lia.
Qed.

Lemma string_not_block : forall root p q f max, elem_at root q = Some f -> e_kind f = KdString max -> ~ same_block root p q.
Proof.
  intros root p q f max Hq Hk [r [i [j [e [f' [t [u [-> [-> [_ [H [_ K]]]]]]]]]]]]. rewrite Hq in H. inversion H; subst.
  congruence.
Qed.

Lemma access_set_terminated : forall root f path s bb ok bb', elem_wf root = true -> List.length bb = footprint root ->
  access_set root f path s 0 bb = Ok (ok, bb') -> strings_terminated root bb -> strings_terminated root bb'.
Proof.
  intros root f path s bb ok bb' Hw Hl Hs T q g max Hq Hk. destruct (param_of root path) as [[p rest]|] eqn:E.
  - destruct (param_of_sound root path p rest E) as [e He]. pose proof He as [Hp Kp].
    destruct (list_eq_dec Nat.eq_dec p q) as [->|Hne].
    + rewrite Hp in Hq. inversion Hq; subst g. unfold access_set in Hs. rewrite E, Hp, Hk in Hs.
      eapply leaf_set_string_terminated; eauto.
    + assert (param_at root q g) as Hg by (split; auto; rewrite Hk; auto).
      pose proof (access_set_frame root f path s bb ok bb' p rest e Hw Hl E Hp Hs) as F.
      assert (List.length bb' = List.length bb) as L.
      { destruct (access_set_total root f path s bb Hw Hl) as [ok2 [b2 [S [L _]]]]. rewrite Hs in S. inversion S; subst; auto. }
      assert (apart (offset root p) (storage_size e) (offset root q) (storage_size g)) as A.
      { apply apart_storage; auto. eapply params_unrelated; eauto. eapply string_not_block; eauto. }
      assert (same_bytes (offset root q) bb' (offset root q) bb (storage_size g)) as SB.
      { eapply apart_same_bytes; eauto. rewrite Hl. apply storage_inside; auto. }
      destruct (T q g max Hq Hk) as [i [Hi Hz]]. exists i. split; auto. destruct SB as [_ [_ SB]]. rewrite SB; auto.
      unfold storage_size. rewrite Hk. destruct g as [nm k cs]. simpl in Hk. subst k. simpl. unfold string_size. lia.
  - unfold access_set in Hs. rewrite E in Hs. inversion Hs; subst. apply (T q g max); auto.
Qed.

(** Two bit parameters of one block. *)
Lemma bit_field_other : forall t u v off bb bb' f, bit_wf t = true -> bit_wf u = true -> bt_block t = bt_block u ->
  (bt_pos t + bt_size t <= bt_pos u \/ bt_pos u + bt_size u <= bt_pos t)%Z ->
  bit_effect t v off bb bb' -> bitparam_get_str u f off bb' = bitparam_get_str u f off bb.
Proof.
  intros t u v off bb bb' f Wt Wu Hb Hd [_ [_ [w [w' [R [R' H]]]]]]. unfold bitparam_get_str. rewrite <- Hb, R, R'.
  cbn [obind]. f_equal. unfold bit_from_bb_str. assert (bit_field u w' = bit_field u w) as ->; auto.
  apply Z.bits_inj'. intros i Hi. rewrite !bit_field_testbit by auto.
  destruct (Z.ltb_spec i (bt_size u)); auto. cbn [andb].
  pose proof (bit_wf_spec u Wu). rewrite H by lia.
  destruct (Z.leb_spec (bt_pos t) (i + bt_pos u)); destruct (Z.ltb_spec (i + bt_pos u) (bt_pos t + bt_size t)); simpl; auto; lia.
Qed.

Lemma access_set_others : forall root f path s bb ok bb' p rest q rest2 path2 f2,
  elem_wf root = true -> fields_apart root -> List.length bb = footprint root -> strings_terminated root bb ->
  param_of root path = Some (p, rest) -> param_of root path2 = Some (q, rest2) -> p <> q ->
  access_set root f path s 0 bb = Ok (ok, bb') ->
  access_get root f2 path2 0 bb' = access_get root f2 path2 0 bb.
Proof.
  intros root f path s bb ok bb' p rest q rest2 path2 f2 Hw Hf Hl T Hp Hq Hne Hs.
  destruct (param_of_sound root path p rest Hp) as [e He]. destruct (param_of_sound root path2 q rest2 Hq) as [g Hg].
  pose proof He as [He1 He2]. pose proof Hg as [Hg1 Hg2]. unfold access_get. rewrite Hq, Hg1.
  assert (List.length bb' = List.length bb) as L.
  { destruct (access_set_total root f path s bb Hw Hl) as [ok2 [b2 [S [L _]]]]. rewrite Hs in S. inversion S; subst; auto. }
  assert (unrelated p q) as U by (eapply params_unrelated; eauto).
  assert (same_block root p q \/ ~ same_block root p q) as [SB|NB].
  { destruct (e_kind e) eqn:Ke; try (right; intros [r [i [j [e1 [e2 [t1 [t2 [_ [_ [H1 [_ [K1 _]]]]]]]]]]]]; congruence).
    destruct (e_kind g) eqn:Kg; try (right; intros [r [i [j [e1 [e2 [t1 [t2 [_ [_ [_ [H2 [_ K2]]]]]]]]]]]]; congruence).
    destruct (bit_storage root p e t Hw He1 Ke) as [r [i [b1 [-> [B1 [B2 _]]]]]].
    destruct (bit_storage root q g t0 Hw Hg1 Kg) as [r2 [j [b2 [-> [C1 [C2 _]]]]]].
    destruct (list_eq_dec Nat.eq_dec r r2) as [<-|Hr].
    - left. exists r, i, j, e, g, t, t0. auto 10.
    - right. intros [r3 [i3 [j3 [e1 [e2 [t1 [t2 [H1 [H2 _]]]]]]]]].
      apply app_inj_tail in H1. apply app_inj_tail in H2. destruct H1, H2. congruence. }
  - destruct SB as [r [i [j [e' [g' [t [u [-> [-> [E1 [E2 [K1 K2]]]]]]]]]]]].
    rewrite He1 in E1. rewrite Hg1 in E2. inversion E1; inversion E2; subst e' g'.
    destruct (bit_storage root _ e t Hw He1 K1) as [r1 [i1 [b1 [H1 [B1 [B2 [B3 B4]]]]]]]. apply app_inj_tail in H1.
    destruct H1 as [<- <-].
    destruct (bit_storage root _ g u Hw Hg1 K2) as [r2 [i2 [b2 [H2 [C1 [C2 [C3 C4]]]]]]]. apply app_inj_tail in H2.
    destruct H2 as [<- <-]. rewrite B1 in C1. inversion C1; subst b2. rewrite B2 in C2. inversion C2 as [Eb].
    unfold access_set in Hs. rewrite Hp, He1, K1 in Hs. rewrite K2. unfold leaf_set in Hs. unfold leaf_get.
    rewrite Nat.sub_0_r in *. destruct rest as [|x rest]; [|inversion Hs; subst; auto].
    apply committed_cases in Hs. destruct Hs as [[_ Hs]|[_ [_ ->]]]; auto. destruct rest2; auto.
    rewrite B3 in Hs. rewrite C3.
    assert (offset root r + bt_block t <= List.length bb) as Hfit.
    { rewrite Hl, <- B3. pose proof (storage_inside root _ e Hw He1) as I. unfold storage_size in I. rewrite K1 in I. auto. }
    destruct (bit_set_any_text t s (offset root r) bb bb' B4 Hfit Hs) as [v [_ [Eff _]]].
    apply (bit_field_other t u v (offset root r)); auto. apply (Hf r i j e g); auto. intros <-. auto.
  - assert (apart (offset root p) (storage_size e) (offset root q) (storage_size g)) as A by (apply apart_storage; auto).
    assert (same_bytes (offset root q) bb' (offset root q) bb (size_of_kind (e_kind g))) as SBy.
    { rewrite <- storage_size_kind by auto. eapply apart_same_bytes; eauto.
      - rewrite Hl. apply storage_inside; auto.
      - eapply access_set_frame; eauto. }
    symmetry. apply leaf_get_same; [eapply param_kind_wf; eauto|apply same_bytes_sym; auto|].
    intros max Hm. apply (T q g max); auto.
Qed.

(** ** Histories of requests *)

(** A sequence of setParameter requests (path and text), accepted or not. *)
Fixpoint run_sets (root : elem) (reqs : list (fmt * str * str)) (bb : blackboard) : outcome blackboard :=
  match reqs with
  | [] => Ok bb
  | (f, path, s) :: r => do x <- access_set root f path s 0 bb; run_sets root r (snd x)
  end.

Lemma zero_terminated : forall root, elem_wf root = true -> strings_terminated root (initial_blackboard root)
  /\ List.length (initial_blackboard root) = footprint root.
Proof.
  intros root Hw. split; [|apply bb_set_size_length]. intros p e max Hp Hk. exists 0. split; [lia|].
  assert (offset root p + string_size max <= footprint root) as H.
  { pose proof (storage_inside root p e Hw Hp) as I. unfold storage_size in I. rewrite Hk in I.
    destruct e as [nm k cs]. simpl in Hk. subst k. auto. }
  unfold initial_blackboard, bb_set_size. rewrite firstn_nil. simpl. rewrite Nat.sub_0_r, Nat.add_0_r.
  assert (forall n i, i < n -> nth_error (repeat zero n) i = Some zero) as R.
  { induction n as [|n IH]; intros [|i] Hi; simpl; auto; try lia. apply IH. lia. }
  apply R. unfold string_size in H. lia.
Qed.

Lemma run_sets_spec : forall root reqs bb, elem_wf root = true -> List.length bb = footprint root ->
  strings_terminated root bb ->
  exists bb', run_sets root reqs bb = Ok bb' /\ List.length bb' = footprint root /\ strings_terminated root bb'
    /\ (fields_apart root -> forall q rest2 path2 f2, param_of root path2 = Some (q, rest2) ->
          (forall f path s rest, In (f, path, s) reqs -> param_of root path <> Some (q, rest)) ->
          access_get root f2 path2 0 bb' = access_get root f2 path2 0 bb).
Proof.
  intros root reqs. induction reqs as [|[[f path] s] r IH]; intros bb Hw Hl T; cbn [run_sets].
  - exists bb. auto.
  - destruct (access_set_total root f path s bb Hw Hl) as [ok [b1 [E [L _]]]]. rewrite E. cbn [obind snd].
    destruct (IH b1 Hw ltac:(congruence) (access_set_terminated root f path s bb ok b1 Hw Hl E T)) as [b2 [R [L2 [T2 O]]]].
    exists b2. split; auto. split; auto. split; auto. intros Hf q rest2 path2 f2 Hq Hn.
    rewrite (O Hf q rest2 path2 f2 Hq).
    + destruct (param_of root path) as [[p rest]|] eqn:Ep.
      * eapply access_set_others; eauto. intros ->. eapply Hn; [left; eauto|eauto].
      * unfold access_set in E. rewrite Ep in E. inversion E; subst. auto.
    + intros f0 path0 s0 rest0 Hin. apply (Hn f0 path0 s0). right. auto.
Qed.

(** ** Whole element access *)

Lemma get_set_bytes : forall root p e bb, elem_wf root = true -> List.length bb = footprint root -> elem_at root p = Some e ->
  exists bytes, get_bytes root p 0 bb = Ok bytes /\ List.length bytes = footprint e
    /\ forall bb2, List.length bb2 = footprint root ->
       exists bb3, set_bytes root p bytes 0 bb2 = Ok bb3 /\ List.length bb3 = footprint root
         /\ (forall i, offset root p <= i < offset root p + footprint e -> nth_error bb3 i = nth_error bb i)
         /\ (forall i, i < offset root p \/ offset root p + footprint e <= i -> nth_error bb3 i = nth_error bb2 i).
Proof.
  intros root p e bb Hw Hl Hp. pose proof (layout_inside_parent root [] p root e Hw eq_refl Hp) as I.
  change ([] ++ p) with p in I. change (offset root []) with 0 in I. simpl in I.
  exists (slice bb (offset root p) (footprint e)). unfold get_bytes, set_bytes. rewrite Hp, Nat.sub_0_r.
  unfold bb_read_bytes, bb_write_bytes, bb_access_ok, bb_size.
  assert (List.length (slice bb (offset root p) (footprint e)) = footprint e) as Ls by (apply slice_length; lia).
  destruct (Nat.leb_spec (offset root p + footprint e) (List.length bb)); [|lia]. split; auto. split; auto.
  intros bb2 Hl2. rewrite Ls, Nat.eqb_refl.
  destruct (Nat.leb_spec (offset root p + footprint e) (List.length bb2)); [|lia].
  eexists. split; [reflexivity|]. split; [rewrite overwrite_length; rewrite ?Ls; lia|]. split; intros i Hi.
  - rewrite nth_error_overwrite_in by (rewrite Ls; lia). rewrite nth_error_slice by lia. f_equal. lia.
  - apply nth_error_overwrite_out; rewrite Ls; lia.
Qed.

Lemma set_bytes_size : forall root p e bytes base bb, elem_at root p = Some e -> List.length bytes <> footprint e ->
  set_bytes root p bytes base bb = Err.
Proof.
  intros root p e bytes base bb Hp Hn. unfold set_bytes. rewrite Hp. destruct (Nat.eqb_spec (footprint e) (List.length bytes)); auto.
  congruence.
Qed.

(** ** Default values *)

Lemma offset_in_shift : forall q x o, offset_in x q o = offset_in x q 0 + o.
Proof.
  induction q as [|j q IHq]; intros x o; simpl; [lia|]. destruct (nth_error (e_children x) j) as [y|]; [|lia].
  set (n := list_sum _). rewrite (IHq y (o + n)), (IHq y n). lia.
Qed.

Lemma elem_ind_nested : forall P : elem -> Prop,
  (forall nm k cs, Forall P cs -> P (Elem nm k cs)) -> forall e, P e.
Proof.
  intros P H. fix IH 1. intros [nm k cs]. apply H. induction cs as [|c cs IHc]; constructor; auto.
Qed.

(** The parameter of kind [k] stored at [o] holds its default value. *)
Definition holds_default (k : ekind) (o : nat) (bb : blackboard) : Prop :=
  match k with
  | KdParam t => bb_read_int bb (pt_size t) o = Ok (word_of (pt_size t) (pt_default t))
  | KdArray t len => forall j, j < len ->
      bb_read_int bb (pt_size t) (o + j * pt_size t) = Ok (word_of (pt_size t) (pt_default t))
  | KdString _ => string_get o bb = Ok []
  | KdBit t => bb_read_int bb (bt_block t) o = Ok 0%Z
  | _ => True
  end.

Lemma holds_default_same : forall k o bb bb', kind_wf k -> same_bytes o bb' o bb (size_of_kind k) ->
  holds_default k o bb -> holds_default k o bb'.
Proof.
  intros k o bb bb' W S H. destruct k; simpl in *; auto.
  - rewrite (read_int_same _ _ _ _ _ S). auto.
  - rewrite (read_int_same _ _ _ _ _ S). auto.
  - intros j Hj. rewrite <- (H j Hj). apply read_int_same. apply (same_bytes_sub _ _ _ _ _ _ _ S).
    unfold array_footprint. nia.
  - rewrite <- H. symmetry. eapply string_get_same; [apply same_bytes_sym; eauto|].
    exists 0. split; [lia|]. unfold string_get, bb_read_string in H.
    destruct (bb_access_ok bb o 1); [|discriminate].
    destruct (c_string (skipn o bb)) as [s|] eqn:E; [|discriminate]. inversion H; subst s.
    apply c_string_Some in E. destruct E as [r [E _]]. simpl in E. rewrite Nat.add_0_r.
    rewrite <- (Nat.add_0_r o), <- nth_error_skipn, E. auto.
Qed.

Lemma set_defaults_spec : forall e off bb, elem_wf e = true -> off + footprint e <= List.length bb ->
  exists bb', set_defaults e off 0 bb = Ok bb' /\ List.length bb' = List.length bb
    /\ (forall i, i < off \/ off + footprint e <= i -> nth_error bb' i = nth_error bb i)
    /\ (forall p c, elem_at e p = Some c -> is_param (e_kind c) = true -> holds_default (e_kind c) (offset_in e p off) bb').
Proof.
  induction e as [nm k cs IH] using elem_ind_nested. intros off bb Hw Hf.
  assert (is_param k = true -> forall (P : elem -> pos -> Prop), P (Elem nm k cs) [] ->
            forall p c, elem_at (Elem nm k cs) p = Some c -> P c p) as LEAF.
  { intros Hk P H0 p c Hc. assert (cs = []) as -> by (apply (param_no_children (Elem nm k cs)); auto).
    destruct p as [|i p]; simpl in Hc; [inversion Hc; subst; auto|destruct i; discriminate]. }
  assert (container k = true -> exists bb',
    (fix go (cs : list elem) (off : nat) (bb : blackboard) : outcome blackboard :=
       match cs with
       | [] => Ok bb
       | c :: r => do bb' <- set_defaults c off 0 bb; go r (off + footprint c) bb'
       end) cs off bb = Ok bb' /\ List.length bb' = List.length bb
    /\ (forall i, i < off \/ off + list_sum (map footprint cs) <= i -> nth_error bb' i = nth_error bb i)
    /\ (forall i p d c, nth_error cs i = Some d -> elem_at d p = Some c -> is_param (e_kind c) = true ->
          holds_default (e_kind c) (offset_in d p (off + list_sum (map footprint (firstn i cs)))) bb')) as CONT.
  { intros Hk. assert (forallb elem_wf cs = true) as Hcs by (destruct k; try discriminate; auto).
    assert (off + list_sum (map footprint cs) <= List.length bb) as Hfit by (destruct k; try discriminate; auto).
    clear Hw Hf LEAF. revert off bb Hfit. induction cs as [|c cs IHc]; intros off bb Hfit.
    - exists bb. split; auto. split; auto. split; auto. intros [|i]; intros; discriminate.
    - simpl in Hcs. apply andb_true_iff in Hcs. destruct Hcs as [Hc Hcs]. inversion IH as [|x l IH1 IH2]; subst. simpl in Hfit.
      destruct (IH1 off bb Hc ltac:(lia)) as [b1 [E1 [L1 [F1 D1]]]].
      destruct (IHc IH2 Hcs (off + footprint c) b1 ltac:(lia)) as [b2 [E2 [L2 [F2 D2]]]].
      exists b2. rewrite E1. cbn [obind]. split; auto. split; [congruence|]. split.
      + intros i Hi. simpl in Hi. rewrite F2 by lia. apply F1. lia.
      + intros [|i] p d g Hd Hg Hp; simpl in Hd.
        * inversion Hd; subst d. simpl. rewrite Nat.add_0_r. specialize (D1 p g Hg Hp).
          assert (elem_at c p = Some g) as Hg' by auto.
          assert (kind_wf (e_kind g)) as Wg by (eapply (param_kind_wf c p g); eauto; split; auto).
          eapply holds_default_same; [auto| |exact D1].
          assert (off <= offset_in c p off /\ offset_in c p off + size_of_kind (e_kind g) <= off + footprint c) as I.
          { split; [apply (inside_in p c g off Hc Hg)|]. 
            pose proof (param_storage_fits c p g Hc (conj Hg Hp)) as S.
            unfold offset in S. rewrite offset_in_shift. lia. }
          split; [lia|]. split; [lia|]. intros i Hi. apply F2. lia.
        * specialize (D2 i p d g Hd Hg Hp). simpl. replace (off + (footprint c + list_sum (map footprint (firstn i cs))))
            with (off + footprint c + list_sum (map footprint (firstn i cs))) by lia. auto. }
  assert (container k = true -> exists bb', set_defaults (Elem nm k cs) off 0 bb = Ok bb' /\ List.length bb' = List.length bb
    /\ (forall i, i < off \/ off + footprint (Elem nm k cs) <= i -> nth_error bb' i = nth_error bb i)
    /\ (forall p c, elem_at (Elem nm k cs) p = Some c -> is_param (e_kind c) = true ->
          holds_default (e_kind c) (offset_in (Elem nm k cs) p off) bb')) as CONT2.
  { intros Hk. destruct (CONT Hk) as [bb' [E [L [F D]]]]. exists bb'.
    split; [destruct k; try discriminate; exact E|]. split; auto.
    split; [destruct k; try discriminate; exact F|]. intros [|i p] c Hc Hp; simpl in Hc.
    - inversion Hc; subst. simpl in Hp. destruct k; discriminate.
    - simpl. destruct (nth_error cs i) as [d|] eqn:Ed; [|discriminate]. eapply D; eauto. }
  destruct k; try (apply CONT2; reflexivity); simpl in Hf; clear CONT CONT2.
  - (* bit block *)
    simpl in Hw. cbn [set_defaults]. rewrite Nat.sub_0_r.
    destruct (write_read_word bb 0 bytes off Hf) as [bb' [W1 [W2 [W3 W4]]]]. exists bb'. split; auto. split; auto.
    split; [simpl; auto|]. intros p c Hc Hp. destruct p as [|i p]; simpl in Hc; [inversion Hc; subst; discriminate|].
    simpl. destruct (nth_error cs i) as [d|] eqn:Ed; [|discriminate].
    pose proof (bits_offset bytes cs i Hw) as Z0. rewrite Z0, Nat.add_0_r.
    rewrite forallb_forall in Hw. specialize (Hw d (nth_error_In _ _ Ed)). unfold bit_child_wf in Hw.
    destruct d as [dn dk dc]. destruct dk; try discriminate. destruct dc; [|discriminate].
    destruct p as [|j p]; simpl in Hc; [|destruct j; discriminate]. inversion Hc; subst c. simpl.
    apply andb_true_iff in Hw. destruct Hw as [_ Hb]. apply Nat.eqb_eq in Hb. rewrite Hb, W3. f_equal.
  - discriminate.
  - cbn [set_defaults]. rewrite Nat.sub_0_r. unfold param_set_default.
    destruct (write_read_word bb (pt_default t) (pt_size t) off Hf) as [bb' [W1 [W2 [W3 W4]]]].
    exists bb'. split; auto. split; auto. split; auto.
    intros p c Hc _. apply (LEAF eq_refl (fun c p => holds_default (e_kind c) (offset_in (Elem nm (KdParam t) cs) p off) bb')); auto.
  - cbn [set_defaults]. destruct (array_set_default_spec t len off bb) as [bb' [E [S1 [S2 S3]]]].
    { unfold array_footprint in Hf. lia. }
    rewrite repeat_length in S3. exists bb'. split; auto. split; auto.
    split; [intros i Hi; apply S3; simpl in Hi; unfold array_footprint in Hi; lia|].
    intros p c Hc _. apply (LEAF eq_refl (fun c p => holds_default (e_kind c) (offset_in (Elem nm (KdArray t len) cs) p off) bb')); auto.
    simpl. intros j Hj. apply S2. clear - Hj. revert len Hj. induction j; intros [|len] Hj; simpl; try lia; auto. apply IHj. lia.
  - cbn [set_defaults]. unfold string_set_default, bb_write_string, bb_access_ok, bb_size. simpl.
    unfold string_size in Hf. destruct (Nat.leb_spec (off + 1) (List.length bb)); [|lia].
    eexists. split; [reflexivity|]. split; [apply overwrite_length; simpl; lia|].
    split; [intros i Hi; apply nth_error_overwrite_out; unfold string_size in Hi; simpl; lia|].
    intros p c Hc _.
    apply (LEAF eq_refl (fun c p => holds_default (e_kind c) (offset_in (Elem nm (KdString max) cs) p off) (overwrite bb off [zero]))); auto.
    simpl. apply (string_set_get max [] off bb); [intros []|]. unfold string_set, string_size. simpl.
    destruct (Nat.leb_spec (max + 1) 0); [lia|]. unfold bb_write_string, bb_access_ok, bb_size. simpl.
    destruct (Nat.leb_spec (off + 1) (List.length bb)); [auto|lia].
Qed.
