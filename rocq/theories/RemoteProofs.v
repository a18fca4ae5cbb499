(** The remote protocol. *)
From Coq Require Import List Arith ZArith Bool Ascii Lia.
From Verif Require Import Base BaseProofs BlackboardModel BlackboardProofs RemoteModel RemoteSpec.
Import ListNotations.
Local Open Scope nat_scope.

(** ** Trimming *)

Lemma drop_blanks_spec : forall s, exists p, s = p ++ drop_blanks s /\ Forall is_blank p /\ forall c r, drop_blanks s = c :: r -> ~ is_blank c.
Proof.
  induction s as [|c s IH]; [exists []; split; auto; split; auto; intros c r H; discriminate|]. simpl. destruct (in_chars blanks c) eqn:E.
  - destruct IH as [p [H1 [H2 H3]]]. exists (c :: p). simpl. rewrite <- H1. split; auto. split; auto. constructor; auto. apply in_chars_In in E. auto.
  - exists []. split; auto. split; auto. intros c0 r H. inversion H; subst. intros C. apply in_chars_In in C. congruence.
Qed.

Lemma trim_spec : forall s, trimmed s (trim s).
Proof.
  intros s. unfold trim. destruct (drop_blanks_spec (rev s)) as [q [Q1 [Q2 Q3]]]. set (u := drop_blanks (rev s)) in *.
  destruct (drop_blanks_spec (rev u)) as [p [P1 [P2 P3]]]. set (t := drop_blanks (rev u)) in *.
  exists p, (rev q). split; [rewrite app_assoc, <- P1, <- rev_app_distr, <- Q1, rev_involutive; auto|]. split; auto. split; [apply Forall_rev; auto|]. split; auto.
  intros c r H. apply (Q3 c (rev (p ++ r))). rewrite <- (rev_involutive u), P1, H, app_assoc, rev_app_distr. auto.
Qed.

(** Only one string is [s] trimmed. *)
Lemma blank_prefix : forall p p' x x', p ++ x = p' ++ x' -> Forall is_blank p -> Forall is_blank p' ->
  (forall c r, x = c :: r -> ~ is_blank c) -> (forall c r, x' = c :: r -> ~ is_blank c) -> x = x'.
Proof.
  induction p as [|c p IH]; intros [|c' p'] x x' E F F' N N'; simpl in E; auto.
  - exfalso. inversion F'; subst. apply (N c' (p' ++ x')); auto.
  - exfalso. inversion F; subst. apply (N' c (p ++ x)); auto.
  - inversion E; subst. inversion F; inversion F'; subst. apply (IH p'); auto.
Qed.

Lemma trimmed_unique : forall s t t', trimmed s t -> trimmed s t' -> t = t'.
Proof.
  intros s t t' [p [q [E [F1 [F2 [N1 N2]]]]]] [p' [q' [E' [F1' [F2' [N1' N2']]]]]].
  destruct t as [|c t], t' as [|c' t']; auto.
  - exfalso. assert (Forall is_blank s) as A by (rewrite E; apply Forall_app; auto). rewrite E' in A. apply Forall_app in A. destruct A as [_ A]. inversion A; subst. apply (N1' c' t'); auto.
  - exfalso. assert (Forall is_blank s) as A by (rewrite E'; apply Forall_app; auto). rewrite E in A. apply Forall_app in A. destruct A as [_ A]. inversion A; subst. apply (N1 c t); auto.
  - assert ((c :: t) ++ q = (c' :: t') ++ q') as H.
    { apply (blank_prefix p p'); auto; try (rewrite <- E, <- E'; auto); intros x r X; inversion X; subst; [apply (N1 x t)|apply (N1' x t')]; auto. }
    apply (f_equal (@rev _)) in H. rewrite !rev_app_distr in H. rewrite <- (rev_involutive (c :: t)), <- (rev_involutive (c' :: t')). f_equal.
    apply (blank_prefix (rev q) (rev q')); auto; try (apply Forall_rev; auto).
    + intros x r X. apply (N2 x (rev r)). rewrite <- (rev_involutive (c :: t)), X. auto.
    + intros x r X. apply (N2' x (rev r)). rewrite <- (rev_involutive (c' :: t')), X. auto.
Qed.

Lemma trimmed_In : forall s t c, trimmed s t -> In c t -> In c s.
Proof. intros s t c [p [q [-> _]]] H. apply in_or_app. right. apply in_or_app. auto. Qed.

Lemma trimmed_length : forall s t, trimmed s t -> List.length t <= List.length s.
Proof. intros s t [p [q [-> _]]]. rewrite !app_length. lia. Qed.

Lemma trim_trimmed : forall s t, trimmed s t -> trimmed t t.
Proof. intros s t [p [q [_ [_ [_ [N1 N2]]]]]]. exists [], []. simpl. rewrite app_nil_r. auto. Qed.

Lemma trim_trim : forall s, trim (trim s) = trim s.
Proof. intros s. apply (trimmed_unique (trim s)); [apply trim_spec|apply (trim_trimmed s); apply trim_spec]. Qed.

Lemma make_request_args : forall args c l, fold_left add_argument args (Request c l) = Request c (l ++ map trim args).
Proof.
  induction args as [|a args IH]; intros c l; simpl; [rewrite app_nil_r; auto|]. unfold add_argument at 2. simpl. rewrite IH, <- app_assoc. auto.
Qed.

(** ** Fields *)

Lemma firstn_exact : forall A n (a s : list A), List.length a = n -> firstn n (a ++ s) = a.
Proof. intros A n a s <-. rewrite firstn_app, Nat.sub_diag, firstn_all. simpl. apply app_nil_r. Qed.

Lemma skipn_exact : forall A n (a s : list A), List.length a = n -> skipn n (a ++ s) = s.
Proof. intros A n a s <-. rewrite skipn_app, Nat.sub_diag, skipn_all. auto. Qed.

Lemma read_field_app : forall n a s, List.length a = n -> 0 < n -> read_field n (a ++ s) = Some (a, s).
Proof.
  intros n a s L P. unfold read_field. destruct n as [|n]; [lia|]. rewrite firstn_exact, skipn_exact by auto.
  replace (S n - List.length (a ++ s)) with 0 by (rewrite app_length; lia). simpl repeat. rewrite app_nil_r. destruct a as [|x a]; [simpl in L; lia|]. auto.
Qed.

Lemma read_field_inv : forall n s a s', read_field n s = Some (a, s') -> 0 < n /\ List.length a = n /\ (s = a ++ s' \/ s' = []).
Proof.
  intros n s a s' H. assert (0 < n /\ a = firstn n s ++ repeat zero (n - List.length s) /\ s' = skipn n s) as [P [-> ->]].
  { unfold read_field in H. destruct n as [|n]; [discriminate|]. destruct s as [|x s]; [discriminate|]. inversion H; subst. split; [lia|auto]. }
  split; auto. destruct (le_gt_dec n (List.length s)) as [L|L].
  - replace (n - List.length s) with 0 by lia. simpl repeat. rewrite app_nil_r. split; [apply firstn_length_le; auto|]. left. symmetry. apply firstn_skipn.
  - split; [rewrite app_length, repeat_length, firstn_length; lia|]. right. apply skipn_all2. lia.
Qed.

Lemma read_field_nil : forall n, read_field n [] = None.
Proof. destruct n; auto. Qed.

Lemma byte_of_u32 : forall n, (Z.of_nat n < 2 ^ 32)%Z -> u32 n = Z.of_nat n.
Proof. intros n H. unfold u32. apply Z.mod_small. lia. Qed.

Lemma le4 : forall z, (0 <= z < 2 ^ 32)%Z -> le_decode (le_encode 4 z) = z.
Proof. intros z H. rewrite le_decode_encode. apply Z.mod_small. exact H. Qed.

(** What the receiver accepts. *)
Lemma receive_frame : forall id data rest, data <> [] -> (Z.of_nat (1 + List.length data) < 2 ^ 32)%Z ->
  receive_message (frame id data ++ rest) = Ok (Received (id, data) rest).
Proof.
  intros id data rest N B. unfold receive_message, frame. rewrite <- !app_assoc. rewrite read_field_app by (rewrite ?le_encode_length; lia).
  replace (le_decode (le_encode 2 sync_word) =? sync_word)%Z with true by (vm_compute; reflexivity). cbn [negb].
  rewrite read_field_app by (rewrite ?le_encode_length; lia). rewrite read_field_app by (simpl; lia). rewrite le4 by lia.
  replace (Z.of_nat (1 + List.length data) =? 0)%Z with false by (symmetry; apply Z.eqb_neq; lia). rewrite Nat2Z.id.
  rewrite read_field_app by (destruct data; simpl; try congruence; lia). rewrite read_field_app by (simpl; lia). cbn [nth]. rewrite char_eqb_refl. auto.
Qed.

Lemma single : forall (a : list byte), List.length a = 1 -> a = [nth 0 a zero].
Proof. intros [|x [|z a]] H; simpl in *; auto; lia. Qed.

Lemma receive_inv : forall s id data rest, receive_message s = Ok (Received (id, data) rest) ->
  data <> [] /\ (Z.of_nat (1 + List.length data) < 2 ^ 32)%Z /\ s = frame id data ++ rest.
Proof.
  intros s id data rest H. unfold receive_message in H.
  destruct (read_field 2 s) as [[w s1]|] eqn:R1; [|discriminate]. destruct (le_decode w =? sync_word)%Z eqn:W; cbn [negb] in H; [|discriminate].
  destruct (read_field 4 s1) as [[sz s2]|] eqn:R2; [|discriminate]. destruct (read_field 1 s2) as [[i s3]|] eqn:R3; [|discriminate].
  destruct (le_decode sz =? 0)%Z eqn:Z0; [discriminate|]. destruct (read_field _ s3) as [[d s4]|] eqn:R4; [|discriminate].
  destruct (read_field 1 s4) as [[ck s5]|] eqn:R5; [|discriminate]. destruct (char_eqb _ _) eqn:C; [|discriminate]. inversion H; subst; clear H.
  apply read_field_inv in R1 as [_ [L1 [E1|E1]]]; [|subst s1; discriminate R2]. apply read_field_inv in R2 as [_ [L2 [E2|E2]]]; [|subst s2; discriminate R3].
  apply read_field_inv in R3 as [_ [L3 [E3|E3]]]; [|subst s3; rewrite read_field_nil in R4; discriminate R4].
  apply read_field_inv in R4 as [P4 [L4 [E4|E4]]]; [|subst s4; discriminate R5].
  assert (s4 = ck ++ rest /\ List.length ck = 1) as [E5 L5].
  { unfold read_field in R5. destruct s4 as [|x s4]; [discriminate|]. inversion R5; subst. simpl. auto. }
  apply char_eqb_eq in C. apply Z.eqb_eq in W. apply Z.eqb_neq in Z0.
  pose proof (le_decode_range sz) as Rs. rewrite L2 in Rs. change (256 ^ Z.of_nat 4)%Z with (2 ^ 32)%Z in Rs.
  split; [intros ->; simpl in L4; lia|]. split; [lia|]. unfold frame. rewrite <- !app_assoc.
  assert (w = le_encode 2 sync_word) as -> by (apply le_decode_inj; [rewrite L1; auto|rewrite W; vm_compute; reflexivity]).
  assert (sz = le_encode 4 (Z.of_nat (1 + List.length data))) as -> by (rewrite <- (le_encode_decode sz), L2; f_equal; lia).
  rewrite (single i L3) in E3. rewrite (single ck L5), C in E5. subst. auto.
Qed.

(** ** Strings *)

Lemma c_string_no_nul : forall s, no_nul s -> c_string (s ++ [zero]) = Some s.
Proof.
  induction s as [|c s IH]; intros N; [reflexivity|]. simpl. destruct (char_eqb c zero) eqn:E; [apply char_eqb_eq in E; subst; exfalso; apply N; left; auto|].
  rewrite IH; auto. intros C. apply N. right. auto.
Qed.

Lemma c_string_some : forall s, exists t, c_string (s ++ [zero]) = Some t.
Proof.
  induction s as [|c s [t IH]]; [exists []; reflexivity|]. simpl. rewrite IH. destruct (char_eqb c zero); eauto.
Qed.

(** The text up to the first NUL. *)
Definition before_nul (s : str) : str := match c_string (s ++ [zero]) with Some t => t | None => [] end.

Lemma before_nul_same : forall s, no_nul s -> before_nul s = s.
Proof. intros s N. unfold before_nul. rewrite c_string_no_nul; auto. Qed.

Lemma read_string_app : forall s data, (Z.of_nat (List.length s) < 2 ^ 32 - 1)%Z ->
  read_string (le_encode 4 (Z.of_nat (List.length s)) ++ s ++ data) = Ok (before_nul s, data).
Proof.
  intros s data B. unfold read_string, read_data. rewrite app_length, le_encode_length. replace (4 <=? 4 + List.length (s ++ data)) with true by (symmetry; apply Nat.leb_le; lia).
  cbn [obind fst snd]. rewrite firstn_exact, skipn_exact by apply le_encode_length. rewrite le4 by lia.
  replace (Z.of_nat (List.length s) =? 2 ^ 32 - 1)%Z with false by (symmetry; apply Z.eqb_neq; lia). rewrite Nat2Z.id, app_length.
  replace (List.length s <=? List.length s + List.length data) with true by (symmetry; apply Nat.leb_le; lia). cbn [obind fst snd].
  rewrite firstn_exact, skipn_exact by auto. unfold before_nul. destruct (c_string_some s) as [t ->]. auto.
Qed.

Lemma read_string_cases : forall data,
  (exists s rest, (Z.of_nat (List.length s) < 2 ^ 32 - 1)%Z /\ data = le_encode 4 (Z.of_nat (List.length s)) ++ s ++ rest /\ read_string data = Ok (before_nul s, rest))
  \/ (read_string data = UB /\ forall s rest, (Z.of_nat (List.length s) < 2 ^ 32 - 1)%Z -> data <> le_encode 4 (Z.of_nat (List.length s)) ++ s ++ rest).
Proof.
  intros data. destruct (le_gt_dec 4 (List.length data)) as [L|L].
  - pose proof (firstn_skipn 4 data) as E. assert (List.length (firstn 4 data) = 4) as L4 by (apply firstn_length_le; auto). set (h := firstn 4 data) in *. set (r := skipn 4 data) in *.
    pose proof (le_decode_range h) as Rn. rewrite L4 in Rn. change (256 ^ Z.of_nat 4)%Z with (2 ^ 32)%Z in Rn.
    destruct (Z.eq_dec (le_decode h) (2 ^ 32 - 1)) as [M|M]; [|destruct (le_gt_dec (Z.to_nat (le_decode h)) (List.length r)) as [B|B]].
    + right. split.
      * unfold read_string, read_data. replace (4 <=? List.length data) with true by (symmetry; apply Nat.leb_le; auto). cbn [obind fst snd]. fold h. rewrite M, Z.eqb_refl. auto.
      * intros s rest Bs C. rewrite <- E in C. apply (f_equal (firstn 4)) in C. rewrite !firstn_exact in C by (auto; apply le_encode_length). rewrite C, le4 in M by lia. lia.
    + left. exists (firstn (Z.to_nat (le_decode h)) r), (skipn (Z.to_nat (le_decode h)) r). rewrite firstn_length_le by auto. rewrite Z2Nat.id by lia. split; [lia|].
      rewrite firstn_skipn. assert (data = le_encode 4 (le_decode h) ++ r) as Ed by (rewrite <- L4 at 1; rewrite le_encode_decode; auto). split; auto.
      rewrite Ed. rewrite <- (firstn_skipn (Z.to_nat (le_decode h)) r) at 1.
      pose proof (read_string_app (firstn (Z.to_nat (le_decode h)) r) (skipn (Z.to_nat (le_decode h)) r)) as H. rewrite firstn_length_le in H by auto. rewrite Z2Nat.id in H by lia. apply H. lia.
    + right. split.
      * unfold read_string, read_data. replace (4 <=? List.length data) with true by (symmetry; apply Nat.leb_le; auto). cbn [obind fst snd]. fold h r. 
        replace (le_decode h =? 2 ^ 32 - 1)%Z with false by (symmetry; apply Z.eqb_neq; auto). replace (Z.to_nat (le_decode h) <=? List.length r) with false by (symmetry; apply Nat.leb_gt; auto). auto.
      * intros s rest Bs C. rewrite <- E in C. pose proof (f_equal (firstn 4) C) as C1. pose proof (f_equal (skipn 4) C) as C2.
        rewrite !firstn_exact in C1 by (auto; apply le_encode_length). rewrite !skipn_exact in C2 by (auto; apply le_encode_length). rewrite C1, le4 in B by lia. rewrite Nat2Z.id, C2, app_length in B. lia.
  - right. split.
    + unfold read_string, read_data. replace (4 <=? List.length data) with false by (symmetry; apply Nat.leb_gt; auto). auto.
    + intros s rest Bs C. apply (f_equal (@List.length _)) in C. rewrite app_length, le_encode_length in C. lia.
Qed.

Lemma packed_head : forall s l data s' rest, packed (s :: l) data -> (Z.of_nat (List.length s') < 2 ^ 32 - 1)%Z -> data = le_encode 4 (Z.of_nat (List.length s')) ++ s' ++ rest -> s = s' /\ packed l rest.
Proof.
  intros s l data s' rest H B E. inversion H as [|x y d Bx Py E1 E2]; subst x y. rewrite E in E2. pose proof (f_equal (firstn 4) E2) as C1. pose proof (f_equal (skipn 4) E2) as C2.
  rewrite !firstn_exact in C1 by apply le_encode_length. rewrite !skipn_exact in C2 by apply le_encode_length.
  apply (f_equal le_decode) in C1. rewrite !le4 in C1 by lia. assert (List.length s = List.length s') as L by lia.
  pose proof (f_equal (firstn (List.length s)) C2) as C3. pose proof (f_equal (skipn (List.length s)) C2) as C4. rewrite !firstn_exact in C3 by auto. rewrite !skipn_exact in C4 by auto. subst. auto.
Qed.

Lemma read_arguments_ok : forall fuel r l data, packed l data -> List.length data <= fuel ->
  read_arguments fuel r data = Ok (fold_left add_argument (map before_nul l) r).
Proof.
  induction fuel as [|f IH]; intros r l data P L.
  - destruct data; [|simpl in L; lia]. inversion P; subst; auto.
  - inversion P as [|s l' d B P' E1 E2]; subst; [auto|]. set (data := le_encode 4 (Z.of_nat (List.length s)) ++ s ++ d) in *.
    assert (data <> []) as N. { intros C. apply (f_equal (@List.length _)) in C. unfold data in C. rewrite app_length, le_encode_length in C. simpl in C. lia. }
    simpl read_arguments. destruct data as [|x dd] eqn:Ed; [congruence|]. rewrite <- Ed in *. unfold data. rewrite read_string_app by auto. cbn [obind fst snd map fold_left]. apply IH; auto.
    unfold data in L. rewrite !app_length, le_encode_length in L. lia.
Qed.

Lemma read_arguments_ub : forall fuel r data, List.length data <= fuel -> (forall l, ~ packed l data) -> read_arguments fuel r data = UB.
Proof.
  induction fuel as [|f IH]; intros r data L N.
  - destruct data; [|simpl in L; lia]. exfalso. apply (N []). constructor.
  - destruct data as [|x d] eqn:Ed; [exfalso; apply (N []); constructor|]. rewrite <- Ed in *. assert (read_arguments (S f) r data = do x <- read_string data; read_arguments f (add_argument r (fst x)) (snd x)) as -> by (rewrite Ed; auto).
    destruct (read_string_cases data) as [[s [rest [B [E ->]]]]|[-> _]]; [|auto]. cbn [obind fst snd]. apply IH.
    + apply (f_equal (@List.length _)) in E. rewrite !app_length, le_encode_length in E. lia.
    + intros l P. apply (N (s :: l)). rewrite E. constructor; auto.
Qed.

Lemma collect_ok : forall s l data, packed (s :: l) data -> collect_request data = Ok (Request (trim (before_nul s)) (map (fun x => trim (before_nul x)) l)).
Proof.
  intros s l data P. unfold collect_request. inversion P as [|x y d B P' E1 E2]; subst x y. rewrite read_string_app by auto. cbn [obind fst snd].
  rewrite (read_arguments_ok _ _ l d P') by (rewrite !app_length; lia). rewrite make_request_args. simpl. rewrite map_map. auto.
Qed.

Lemma collect_ub : forall data, (forall s l, ~ packed (s :: l) data) -> collect_request data = UB.
Proof.
  intros data N. unfold collect_request. destruct (read_string_cases data) as [[s [rest [B [E ->]]]]|[-> _]]; [|auto]. cbn [obind fst snd].
  apply read_arguments_ub.
  - apply (f_equal (@List.length _)) in E. rewrite !app_length in E. lia.
  - intros l P. apply (N s l). rewrite E. constructor; auto.
Qed.

Lemma packed_unique : forall l l' data, packed l data -> packed l' data -> l = l'.
Proof.
  induction l as [|s l IH]; intros l' data P P'.
  - inversion P; subst. inversion P'; auto.
  - destruct l' as [|s' l']; [inversion P'; subst; inversion P|]. inversion P' as [|x y d' B' Q' E1' E2']; subst x y.
    destruct (packed_head s l data s' d' P B' ltac:(auto)) as [-> Pl]. f_equal. apply (IH l' d'); auto.
Qed.

(** ** Sending *)

Lemma request_size_sum : forall l n, fold_left (fun n s => n + string_size s) l n = n + list_sum (map (fun s => 4 + List.length s) l).
Proof. induction l as [|s l IH]; intros n; cbn [fold_left map list_sum]; [lia|]. rewrite IH. unfold string_size. lia. Qed.

Lemma write_string_eq : forall s, (Z.of_nat (List.length s) < 2 ^ 32)%Z -> write_string s = le_encode 4 (Z.of_nat (List.length s)) ++ s.
Proof. intros s B. unfold write_string. rewrite byte_of_u32 by auto. rewrite Nat2Z.id, firstn_all. auto. Qed.

Lemma packed_write : forall l, Forall (fun s => (Z.of_nat (List.length s) < 2 ^ 32 - 1)%Z) l ->
  packed l (flat_map write_string l) /\ List.length (flat_map write_string l) = list_sum (map (fun s => 4 + List.length s) l).
Proof.
  induction l as [|s l IH]; intros F; cbn [flat_map map list_sum]; [split; constructor|]. inversion F as [|x y B F']; subst. destruct (IH F') as [I1 I2]. rewrite write_string_eq by lia. rewrite <- app_assoc.
  split; [constructor; auto|]. rewrite !app_length, le_encode_length, I2. lia.
Qed.

Lemma list_sum_le : forall (A : Type) (f g : A -> nat) l, (forall x, In x l -> f x <= g x) -> list_sum (map f l) <= list_sum (map g l).
Proof. induction l as [|x l IH]; intros H; simpl; auto. pose proof (H x (or_introl eq_refl)). assert (list_sum (map f l) <= list_sum (map g l)) by (apply IH; intros; apply H; right; auto). lia. Qed.

Lemma list_sum_in : forall n l, In n l -> n <= list_sum l.
Proof. induction l as [|x l IH]; simpl; [tauto|]. intros [->|H]; [lia|]. specialize (IH H). lia. Qed.

Lemma sent_request : forall c args, fits c args -> exists data, send_request (make_request c args) = frame msg_request data /\ packed (c :: map trim args) data
  /\ (Z.of_nat (1 + List.length data) < 2 ^ 32)%Z /\ data <> [].
Proof.
  intros c args F. unfold fits in F. unfold make_request. rewrite make_request_args. simpl app.
  assert (list_sum (map (fun s => 4 + List.length s) (map trim args)) <= list_sum (map (fun s => 4 + List.length s) args)) as Le.
  { rewrite map_map. apply list_sum_le. intros x _. pose proof (trimmed_length x (trim x) (trim_spec x)). lia. }
  assert (Forall (fun s => (Z.of_nat (List.length s) < 2 ^ 32 - 1)%Z) (c :: map trim args)) as B.
  { constructor; [lia|]. apply Forall_forall. intros x Hx. pose proof (list_sum_in (4 + List.length x) (map (fun s => 4 + List.length s) (map trim args)) ltac:(apply in_map_iff; exists x; auto)). lia. }
  destruct (packed_write _ B) as [P L]. cbn [flat_map] in P, L. exists (write_string c ++ flat_map write_string (map trim args)).
  unfold send_request, send_message. simpl rq_command. simpl rq_args.
  replace (request_size (Request c (map trim args))) with (List.length (write_string c ++ flat_map write_string (map trim args))).
  2:{ rewrite L. unfold request_size. simpl rq_args. simpl rq_command. rewrite request_size_sum. unfold string_size. cbn [map list_sum]. lia. }
  rewrite Nat.sub_diag. simpl repeat. rewrite app_nil_r. cbn [map list_sum] in L. split; [unfold frame; rewrite byte_of_u32; auto; lia|]. split; auto. split; [lia|].
  intros C. rewrite C in L. cbn [List.length] in L. lia.
Qed.

Lemma sent_answer : forall a, (Z.of_nat (5 + List.length (an_text a)) < 2 ^ 32)%Z ->
  exists data, send_answer a = frame (if an_ok a then msg_success else msg_failure) data /\ packed [an_text a] data /\ (Z.of_nat (1 + List.length data) < 2 ^ 32)%Z /\ data <> [].
Proof.
  intros a B. destruct (packed_write [an_text a]) as [P L]; [constructor; [lia|constructor]|]. cbn [flat_map] in P, L. rewrite app_nil_r in P, L. exists (write_string (an_text a)).
  cbn [map list_sum] in L. unfold send_answer, send_message, string_size. replace (List.length (an_text a) + 4) with (List.length (write_string (an_text a))) by lia.
  rewrite Nat.sub_diag. simpl repeat. rewrite app_nil_r. split; [unfold frame; rewrite byte_of_u32; auto; lia|]. split; auto. split; [lia|]. intros C. rewrite C in L. cbn [List.length] in L. lia.
Qed.

(** ** Checksum *)

Lemma checksum_val : forall data id, (bval (checksum id data) = (bval id + fold_right (fun b z => bval b + z) 0 data) mod 256)%Z.
Proof.
  induction data as [|b data IH]; intros id; simpl.
  - rewrite Z.add_0_r. symmetry. apply Z.mod_small. apply bval_range.
  - unfold checksum in *. simpl. rewrite IH, bval_byte_of. rewrite Zplus_mod_idemp_l. f_equal. lia.
Qed.

Definition byte_sum (data : list byte) : Z := fold_right (fun b z => bval b + z)%Z 0%Z data.

Lemma byte_sum_app : forall a b, byte_sum (a ++ b) = (byte_sum a + byte_sum b)%Z.
Proof. induction a as [|x a IH]; intros b; simpl; auto. fold (byte_sum (a ++ b)). rewrite IH. fold (byte_sum a). lia. Qed.

Lemma checksum_sum : forall id data, bval (checksum id data) = (byte_sum (id :: data) mod 256)%Z.
Proof. intros id data. rewrite checksum_val. auto. Qed.

Lemma nth_error_ext : forall A (l l' : list A), (forall n, nth_error l n = nth_error l' n) -> l = l'.
Proof.
  induction l as [|x l IH]; intros [|y l'] H; auto; try (specialize (H 0); discriminate). pose proof (H 0) as H0. inversion H0; subst. f_equal. apply IH. intros n. apply (H (S n)).
Qed.

(** One byte altered. *)
Lemma altered_split : forall i s s', altered i s s' -> exists a x x' b, s = a ++ x :: b /\ s' = a ++ x' :: b /\ List.length a = i /\ x <> x'.
Proof.
  intros i s s' [L [Hi [D S]]]. destruct (nth_error s i) as [x|] eqn:E; [|apply nth_error_None in E; lia]. destruct (nth_error s' i) as [x'|] eqn:E'; [|apply nth_error_None in E'; lia].
  destruct (nth_error_split s i E) as [a [b [-> La]]]. destruct (nth_error_split s' i E') as [a' [b' [-> La']]]. exists a, x, x', b. split; auto.
  assert (a' = a) as ->.
  { apply nth_error_ext. intros n. destruct (le_gt_dec i n) as [G|G]; [rewrite !(proj2 (nth_error_None _ _)) by lia; auto|]. specialize (S n ltac:(lia)). rewrite !nth_error_app1 in S by lia. auto. }
  assert (b' = b) as ->.
  { apply nth_error_ext. intros n. specialize (S (i + 1 + n) ltac:(lia)). rewrite !nth_error_app2 in S by lia. rewrite La in S. replace (i + 1 + n - i) with (Datatypes.S n) in S by lia. auto. }
  split; auto. split; auto. congruence.
Qed.

(** A message of the right size, with any identifier, data and checksum. *)
Definition raw_frame (id : byte) (data : list byte) (ck : byte) : list byte :=
  le_encode 2 sync_word ++ le_encode 4 (Z.of_nat (1 + List.length data)) ++ [id] ++ data ++ [ck].

Lemma receive_raw : forall id data ck rest, data <> [] -> (Z.of_nat (1 + List.length data) < 2 ^ 32)%Z ->
  receive_message (raw_frame id data ck ++ rest) = if char_eqb ck (checksum id data) then Ok (Received (id, data) rest) else Ok Rejected.
Proof.
  intros id data ck rest N B. unfold receive_message, raw_frame. rewrite <- !app_assoc. rewrite read_field_app by (rewrite ?le_encode_length; lia).
  replace (le_decode (le_encode 2 sync_word) =? sync_word)%Z with true by (vm_compute; reflexivity). cbn [negb].
  rewrite read_field_app by (rewrite ?le_encode_length; lia). rewrite read_field_app by (simpl; lia). rewrite le4 by lia.
  replace (Z.of_nat (1 + List.length data) =? 0)%Z with false by (symmetry; apply Z.eqb_neq; lia). rewrite Nat2Z.id.
  rewrite read_field_app by (destruct data; simpl; try congruence; lia). rewrite read_field_app by (simpl; lia). cbn [nth]. auto.
Qed.

Lemma split_at : forall A (p m a b : list A) x, p ++ m = a ++ x :: b -> List.length p <= List.length a -> exists a2, a = p ++ a2 /\ m = a2 ++ x :: b.
Proof.
  induction p as [|y p IH]; intros m a b x E L; simpl in *; [exists a; auto|]. destruct a as [|z a]; simpl in L; [lia|]. simpl in E. inversion E; subst.
  destruct (IH m a b x) as [a2 [-> ->]]; auto; [lia|]. exists a2. auto.
Qed.

Lemma split_in : forall A (m r a b : list A) x, m ++ r = a ++ x :: b -> List.length a < List.length m -> exists b2, m = a ++ x :: b2 /\ b = b2 ++ r.
Proof.
  induction m as [|y m IH]; intros r a b x E L; simpl in *; [lia|]. destruct a as [|z a]; simpl in *; inversion E; subst; [exists m; auto|].
  destruct (IH r a b x) as [b2 [-> ->]]; auto; [lia|]. exists b2. auto.
Qed.

Lemma altered_rejected : forall i s s' id data rest, receive_message s = Ok (Received (id, data) rest) -> altered i s s' -> 6 <= i < 8 + List.length data ->
  receive_message s' = Ok Rejected.
Proof.
  intros i s s' id data rest H A I. destruct (receive_inv s id data rest H) as [N [B E]]. destruct (altered_split i s s' A) as [a [x [x' [b [E1 [E2 [La D]]]]]]].
  set (p := le_encode 2 sync_word ++ le_encode 4 (Z.of_nat (1 + List.length data))). assert (List.length p = 6) as Lp by (unfold p; rewrite app_length, !le_encode_length; auto).
  assert (p ++ (id :: data ++ [checksum id data]) ++ rest = a ++ x :: b) as E3 by (rewrite <- E1, E; unfold p, frame; change (id :: data ++ [checksum id data]) with ([id] ++ data ++ [checksum id data]); rewrite <- !app_assoc; auto).
  destruct (split_at _ _ _ _ _ _ E3) as [a2 [-> E4]]; [lia|]. rewrite app_length in La.
  destruct (split_in _ _ _ _ _ _ E4) as [b2 [E5 ->]]; [simpl; rewrite app_length; simpl; lia|].
  assert (s' = p ++ (a2 ++ x' :: b2) ++ rest) as -> by (rewrite E2, <- !app_assoc; auto). clear E1 E2 E3 E4 A H E.
  assert (exists id' data' ck', a2 ++ x' :: b2 = id' :: data' ++ [ck'] /\ List.length data' = List.length data /\ ck' <> checksum id' data') as [id' [data' [ck' [F1 [F2 F3]]]]].
  { change (id :: data ++ [checksum id data]) with ((id :: data) ++ [checksum id data]) in E5. destruct (exists_last (l := x :: b2) ltac:(discriminate)) as [c [z Ez]].
    destruct b2 as [|w b3].
    - apply app_inj_tail in E5. destruct E5 as [<- E6]. exists id, data, x'. split; auto. split; auto. congruence.
    - destruct (exists_last (l := w :: b3) ltac:(discriminate)) as [b4 [k Ek]]. rewrite Ek in E5. rewrite Ek.
      change (a2 ++ x :: b4 ++ [k]) with (a2 ++ (x :: b4) ++ [k]) in E5. rewrite app_assoc in E5. apply app_inj_tail in E5. destruct E5 as [E6 E7].
      change (a2 ++ x' :: b4 ++ [k]) with (a2 ++ (x' :: b4) ++ [k]). rewrite app_assoc.
      assert (exists id' data', a2 ++ x' :: b4 = id' :: data') as [id' [data' E8]] by (destruct a2; simpl; eauto). exists id', data', k. rewrite E8. split; auto.
      split; [apply (f_equal (@List.length _)) in E6; apply (f_equal (@List.length _)) in E8; rewrite app_length in *; simpl in *; lia|].
      intros C. assert (bval k = bval (checksum id' data')) as C1 by congruence. rewrite <- E7, !checksum_sum, <- E8, E6, !byte_sum_app in C1.
      cbn [byte_sum fold_right] in C1. fold (byte_sum b4) in C1.
      pose proof (bval_range x). pose proof (bval_range x'). apply D. apply bval_inj.
      set (t := (byte_sum a2 + byte_sum b4)%Z). replace (byte_sum a2 + (bval x + byte_sum b4))%Z with (bval x + t)%Z in C1 by (unfold t; lia). replace (byte_sum a2 + (bval x' + byte_sum b4))%Z with (bval x' + t)%Z in C1 by (unfold t; lia).
      pose proof (Z.div_mod (bval x + t) 256). pose proof (Z.div_mod (bval x' + t) 256). lia. }
  rewrite F1. assert (p ++ (id' :: data' ++ [ck']) ++ rest = raw_frame id' data' ck' ++ rest) as -> by (unfold p, raw_frame; change (id' :: data' ++ [ck']) with ([id'] ++ data' ++ [ck']); rewrite F2, <- !app_assoc; auto).
  rewrite receive_raw.
  - replace (char_eqb ck' (checksum id' data')) with false; auto. symmetry. apply char_eqb_neq. auto.
  - intros ->. destruct data; auto. simpl in F2. lia.
  - rewrite F2. auto.
Qed.

(** The synchronisation word. *)
Lemma altered_sync : forall i s s' id data rest, receive_message s = Ok (Received (id, data) rest) -> altered i s s' -> i < 2 -> receive_message s' = Ok Rejected.
Proof.
  intros i s s' id data rest H [L [_ [D S]]] I. destruct (receive_inv s id data rest H) as [N [B E]].
  assert (2 <= List.length s) as Ls by (rewrite E; unfold frame; rewrite !app_length, le_encode_length; lia).
  destruct s' as [|x [|y s']]; simpl in L; try lia. destruct s as [|x0 [|y0 s]]; simpl in L; try (simpl in Ls; lia).
  unfold receive_message. change (x :: y :: s') with ([x; y] ++ s'). rewrite read_field_app by (simpl; lia).
  assert ([x0; y0] = le_encode 2 sync_word) as E0. { apply (f_equal (firstn 2)) in E. unfold frame in E. rewrite <- app_assoc, firstn_exact in E by apply le_encode_length. auto. }
  destruct (le_decode [x; y] =? sync_word)%Z eqn:W; [|auto]. exfalso. apply Z.eqb_eq in W.
  assert ([x; y] = [x0; y0]) as Ex. { rewrite E0. apply le_decode_inj; [reflexivity|]. rewrite W. vm_compute. reflexivity. }
  inversion Ex; subst. apply D. destruct i as [|[|i]]; auto. lia.
Qed.

(** ** The server *)

Lemma received_shorter : forall s q rest, receive_request s = Ok (Received q rest) -> List.length rest < List.length s.
Proof.
  intros s q rest H. unfold receive_request in H. destruct (receive_message s) as [[[id data] r| |]| | |] eqn:E; try discriminate. cbn [obind] in H.
  destruct (collect_request data); try discriminate. cbn [obind] in H. inversion H; subst. destruct (receive_inv _ _ _ _ E) as [_ [_ ->]].
  unfold frame. rewrite !app_length, !le_encode_length. simpl. lia.
Qed.

Lemma receive_none : receive_request [] = Ok Disconnected.
Proof. reflexivity. Qed.

Lemma serve_fuel : forall (T : Type) (process : T -> request -> outcome (answer * T)) f s st, List.length s <= f -> serve_loop process f st s = serve process st s.
Proof.
  intros T process. unfold serve. assert (forall n s st f g, List.length s <= n -> List.length s <= f -> List.length s <= g -> serve_loop process f st s = serve_loop process g st s) as G.
  { induction n as [|n IH]; intros s st f g Ln Lf Lg.
    - destruct s; [|simpl in Ln; lia]. destruct f, g; auto.
    - destruct f as [|f], g as [|g]; auto; try (destruct s; [auto|simpl in *; lia]). simpl. destruct (receive_request s) as [[q rest| |]| | |] eqn:E; auto. cbn [obind].
      pose proof (received_shorter _ _ _ E). destruct (process st q) as [[a st']| | |]; auto. cbn [obind fst snd]. rewrite (IH rest st' f g); auto; lia. }
  intros f s st L. apply (G (List.length s)); auto.
Qed.

Lemma serve_step : forall (T : Type) (process : T -> request -> outcome (answer * T)) s st q rest, receive_request s = Ok (Received q rest) ->
  serve process st s = do x <- process st q; do z <- serve process (snd x) rest; Ok (fst z, send_answer (fst x) ++ snd z).
Proof.
  intros T process s st q rest H. unfold serve at 1. pose proof (received_shorter _ _ _ H) as L. destruct (List.length s) as [|n] eqn:E; [lia|]. simpl serve_loop. rewrite H. cbn [obind].
  destruct (process st q) as [[a st']| | |]; auto. cbn [obind fst snd]. rewrite serve_fuel by lia. auto.
Qed.
