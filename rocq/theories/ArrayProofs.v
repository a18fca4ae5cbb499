(** Proofs about array and string parameters. *)
From Coq Require Import List Arith ZArith Bool Ascii String Lia.
From Verif Require Import Base BaseProofs TextModel TextSpec TextProofs RealModel ParamTypeModel ParamTypeSpec
  BlackboardModel BlackboardProofs IntProofs ArrayModel ArraySpec.
Import ListNotations.
Local Open Scope nat_scope.

Lemma stores_nil : forall size off bb, stores size off [] bb bb.
Proof. intros. split; auto. split; auto. intros [|j] u H; discriminate. Qed.

Lemma stores_cons : forall size off u us bb bb1 bb2,
  off + (1 + List.length us) * size <= List.length bb ->
  bb_write_int bb u size off = Ok bb1 -> stores size (off + size) us bb1 bb2 -> stores size off (u :: us) bb bb2.
Proof.
  intros size off u us bb bb1 bb2 Hl H1 [S1 [S2 S3]].
  destruct (write_read_word bb u size off ltac:(lia)) as [bb1' [W1 [W2 [W3 W4]]]].
  rewrite H1 in W1. inversion W1; subst bb1'.
  split; [congruence|]. split.
  - intros [|j] v Hv; simpl in Hv.
    + inversion Hv; subst v. rewrite Nat.mul_0_l, Nat.add_0_r.
      apply bb_read_int_Ok in W3. apply bb_read_int_Ok. rewrite S1. split; [lia|].
      destruct W3 as [_ ->]. f_equal. apply slice_ext. intros i Hi. symmetry. apply S3. lia.
    + replace (off + S j * size) with (off + size + j * size) by lia. auto.
  - intros i Hi. cbn [List.length] in Hi. rewrite S3 by lia. apply W4. lia.
Qed.

(** ** Setting from text *)

Lemma array_set_list_Ok : forall t f vals us, Forall2 (fun v u => to_bb_str t f v = Ok u) vals us ->
  forall off bb, off + List.length us * pt_size t <= List.length bb ->
  exists bb', array_set_list t f vals off bb = Ok (true, bb') /\ stores (pt_size t) off us bb bb'.
Proof.
  intros t f vals us H. induction H as [|v u vals us Hv H IH]; intros off bb Hl.
  - exists bb. split; auto. apply stores_nil.
  - cbn [array_set_list List.length] in *. rewrite Hv.
    destruct (write_read_word bb u (pt_size t) off ltac:(lia)) as [bb1 [W1 [W2 _]]].
    rewrite W1. cbn [obind]. destruct (IH (off + pt_size t) bb1 ltac:(lia)) as [bb2 [E2 S2]].
    exists bb2. split; auto. apply (stores_cons _ _ _ _ _ bb1); auto; lia.
Qed.

(** The values before the first refused one have been written. *)
Lemma array_set_list_Err : forall t f vals us v rest, Forall2 (fun v u => to_bb_str t f v = Ok u) vals us ->
  to_bb_str t f v = Err ->
  forall off bb, off + List.length us * pt_size t <= List.length bb ->
  exists bb', array_set_list t f (vals ++ v :: rest) off bb = Ok (false, bb') /\ stores (pt_size t) off us bb bb'.
Proof.
  intros t f vals us v rest H Hv. induction H as [|w u vals us Hw H IH]; intros off bb Hl.
  - exists bb. cbn [app array_set_list]. rewrite Hv. split; auto. apply stores_nil.
  - cbn [app array_set_list List.length] in *. rewrite Hw.
    destruct (write_read_word bb u (pt_size t) off ltac:(lia)) as [bb1 [W1 [W2 _]]].
    rewrite W1. cbn [obind]. destruct (IH (off + pt_size t) bb1 ltac:(lia)) as [bb2 [E2 S2]].
    exists bb2. split; auto. apply (stores_cons _ _ _ _ _ bb1); auto; lia.
Qed.

Lemma array_set_text_Ok : forall t len f start off s vals us bb,
  runs array_delimiters s vals -> Forall2 (fun v u => to_bb_str t f v = Ok u) vals us ->
  start + List.length vals <= len -> off + len * pt_size t <= List.length bb ->
  exists bb', array_set_text t len f start off s bb = Ok (true, bb')
    /\ stores (pt_size t) (off + start * pt_size t) us bb bb'.
Proof.
  intros t len f start off s vals us bb Hr H Hl Hb. unfold array_set_text.
  apply split_merge_spec in Hr. rewrite Hr. pose proof (Forall2_len _ _ _ _ _ H) as HL.
  destruct (Nat.ltb_spec len (List.length vals + start)); [lia|].
  apply array_set_list_Ok; auto. nia.
Qed.

Lemma array_set_text_too_many : forall t len f start off s vals bb,
  runs array_delimiters s vals -> len < start + List.length vals ->
  array_set_text t len f start off s bb = Ok (false, bb).
Proof.
  intros t len f start off s vals bb Hr Hl. unfold array_set_text.
  apply split_merge_spec in Hr. rewrite Hr.
  destruct (Nat.ltb_spec len (List.length vals + start)); auto. lia.
Qed.

Lemma to_bb_str_cases : forall t f s, (exists u, to_bb_str t f s = Ok u) \/ to_bb_str t f s = Err.
Proof.
  intros t f s. destruct t; cbn [to_bb_str].
  - unfold int_of_str. destruct (convertTo _ s); auto. destruct (_ || _)%bool; eauto.
  - unfold bool_of_str. destruct (_ || _)%bool; eauto. destruct (_ || _)%bool; eauto.
  - assert (forall v, (exists u, enum_of_int bytes pairs f v = Ok u) \/ enum_of_int bytes pairs f v = Err) as K.
    { intros v. unfold enum_of_int. destruct (negb _); auto. destruct (_ || _)%bool; eauto. }
    unfold enum_of_str. destruct (convertTo t_int32 s); auto. destruct (enum_numerical pairs s); auto.
  - unfold fix_of_str. destruct (_ && _)%bool; auto. destruct (f_raw f).
    + destruct (is_hexadecimal s).
      * destruct (convertTo t_uint32 s); auto. destruct (is_encodable _ _ _); eauto.
      * destruct (convertTo t_int32 s); auto. cbv zeta. destruct (is_encodable _ _ _); eauto.
    + destruct (convert_double s); auto. cbv zeta. destruct (fix_in_range _ _ _); eauto.
  - unfold float_of_str. destruct (_ && _)%bool; auto. destruct (f_raw f).
    + destruct (convertTo t_uint32 s); auto. destruct (_ && _)%bool; eauto.
    + destruct (convert_float s); auto. destruct (float_in_range _ _ _); eauto.
Qed.

(** Every list of texts splits at the first refused one. *)
Lemma first_refused : forall t f vals,
  (exists us, Forall2 (fun v u => to_bb_str t f v = Ok u) vals us)
  \/ (exists good us v rest, vals = good ++ v :: rest /\ Forall2 (fun v u => to_bb_str t f v = Ok u) good us
       /\ to_bb_str t f v = Err).
Proof.
  intros t f vals. induction vals as [|v vals IH].
  - left. exists []. constructor.
  - destruct (to_bb_str_cases t f v) as [[u Hu]|He].
    + destruct IH as [[us H]|[good [us [w [rest [-> [H Hw]]]]]]].
      * left. exists (u :: us). constructor; auto.
      * right. exists (v :: good), (u :: us), w, rest. split; auto.
    + right. exists [], [], v, vals. split; auto.
Qed.

Lemma array_set_text_refused : forall t len f start off s good us v rest bb,
  runs array_delimiters s (good ++ v :: rest) -> Forall2 (fun v u => to_bb_str t f v = Ok u) good us ->
  to_bb_str t f v = Err ->
  start + List.length (good ++ v :: rest) <= len -> off + len * pt_size t <= List.length bb ->
  exists bb', array_set_text t len f start off s bb = Ok (false, bb')
    /\ stores (pt_size t) (off + start * pt_size t) us bb bb'.
Proof.
  intros t len f start off s good us v rest bb Hr H He Hl Hb. unfold array_set_text.
  apply split_merge_spec in Hr. rewrite Hr. pose proof (Forall2_len _ _ _ _ _ H) as HL.
  destruct (Nat.ltb_spec len (List.length (good ++ v :: rest) + start)); [lia|].
  apply array_set_list_Err; auto. rewrite app_length in Hl. nia.
Qed.

(** Whatever the text, nothing outside of the array changes. *)
Lemma array_set_text_frame : forall t len f start off s bb, start <= len ->
  off + len * pt_size t <= List.length bb ->
  exists ok bb', array_set_text t len f start off s bb = Ok (ok, bb')
    /\ List.length bb' = List.length bb
    /\ (forall i, i < off + start * pt_size t \/ off + len * pt_size t <= i -> nth_error bb' i = nth_error bb i).
Proof.
  intros t len f start off s bb Hs Hb.
  assert (runs array_delimiters s (split s array_delimiters true)) as Hr by (apply split_merge_spec; auto).
  set (vals := split s array_delimiters true) in *.
  destruct (Nat.le_gt_cases (start + List.length vals) len) as [Hl|Hl].
  - destruct (first_refused t f vals) as [[us H]|[good [us [v [rest [E [H He]]]]]]].
    + destruct (array_set_text_Ok t len f start off s vals us bb Hr H Hl Hb) as [bb' [E [S1 [S2 S3]]]].
      exists true, bb'. split; auto. split; auto. intros i Hi. apply S3.
      pose proof (Forall2_len _ _ _ _ _ H). nia.
    + rewrite E in *.
      destruct (array_set_text_refused t len f start off s good us v rest bb Hr H He Hl Hb) as [bb' [E2 [S1 [S2 S3]]]].
      exists false, bb'. split; auto. split; auto. intros i Hi. apply S3.
      pose proof (Forall2_len _ _ _ _ _ H). rewrite app_length in Hl. nia.
  - exists false, bb. split; auto. eapply array_set_text_too_many; eauto.
Qed.

(** ** Getting *)

Lemma array_get_list_spec : forall t f n off bb l, array_get_list t f n off bb = Ok l ->
  List.length l = n /\ forall j, j < n -> exists s, nth_error l j = Some s
     /\ param_get_str t f (off + j * pt_size t) bb = Ok s.
Proof.
  intros t f n. induction n as [|n IH]; intros off bb l H; cbn [array_get_list] in H.
  - inversion H; subst. split; auto. intros j Hj. lia.
  - destruct (param_get_str t f off bb) as [v| | |] eqn:E; try discriminate. cbn [obind] in H.
    destruct (array_get_list t f n (off + pt_size t) bb) as [r| | |] eqn:E2; try discriminate. cbn [obind] in H.
    inversion H; subst l. destruct (IH _ _ _ E2) as [L K]. split; [simpl; auto|].
    intros [|j] Hj; simpl.
    + exists v. rewrite Nat.add_0_r. auto.
    + destruct (K j ltac:(lia)) as [s [H1 H2]]. exists s. split; auto.
      replace (off + (pt_size t + j * pt_size t)) with (off + pt_size t + j * pt_size t) by lia. auto.
Qed.

(** Elements whose text can be written back. *)
Definition rewritable (t : ptype) (f : fmt) (u : Z) : Prop :=
  exists s u', from_bb_str t f u = Ok s /\ s <> [] /\ (forall c, In c s -> ~ In c array_delimiters)
    /\ to_bb_str t f s = Ok u' /\ word_of (pt_size t) u' = u.

Lemma array_get_list_rewritable : forall t f n off bb, off + n * pt_size t <= List.length bb ->
  (forall j, j < n -> exists u, bb_read_int bb (pt_size t) (off + j * pt_size t) = Ok u /\ rewritable t f u) ->
  exists l us, array_get_list t f n off bb = Ok l /\ Forall2 (fun v u => to_bb_str t f v = Ok u) l us
    /\ Forall (fun s => s <> [] /\ forall c, In c s -> ~ In c array_delimiters) l
    /\ List.length l = n
    /\ forall j u, nth_error us j = Some u -> bb_read_int bb (pt_size t) (off + j * pt_size t) = Ok (word_of (pt_size t) u).
Proof.
  intros t f n. induction n as [|n IH]; intros off bb Hl H.
  - exists [], []. repeat split; auto. intros [|j] u K; discriminate.
  - destruct (H 0 ltac:(lia)) as [u [E [s [u' [R1 [R2 [R3 [R4 R5]]]]]]]]. rewrite Nat.mul_0_l, Nat.add_0_r in E.
    destruct (IH (off + pt_size t) bb ltac:(lia)) as [l [us [L1 [L2 [L3 [L4 L5]]]]]].
    { intros j Hj. destruct (H (S j) ltac:(lia)) as [w [E2 Hw]]. exists w. split; auto.
      replace (off + pt_size t + j * pt_size t) with (off + S j * pt_size t) by lia. auto. }
    exists (s :: l), (u' :: us). cbn [array_get_list]. unfold param_get_str. rewrite E. cbn [obind]. rewrite R1. cbn [obind].
    rewrite L1. cbn [obind]. repeat split; auto.
    + simpl; auto.
    + intros [|j] v K; simpl in K.
      * inversion K; subst v. rewrite Nat.mul_0_l, Nat.add_0_r, R5. auto.
      * replace (off + S j * pt_size t) with (off + pt_size t + j * pt_size t) by lia. auto.
Qed.

Lemma nth_in_cell : forall size off n i, 0 < size -> off <= i < off + n * size ->
  exists j, j < n /\ off + j * size <= i < off + j * size + size.
Proof.
  intros size off n i Hs Hi. exists ((i - off) / size).
  pose proof (Nat.div_mod_eq (i - off) size). pose proof (Nat.mod_upper_bound (i - off) size ltac:(lia)).
  split; [|nia]. apply Nat.div_lt_upper_bound; nia.
Qed.

(** Storing what is already there changes nothing. *)
Lemma stores_same : forall size off us bb bb', 0 < size -> off + List.length us * size <= List.length bb ->
  (forall j u, nth_error us j = Some u -> bb_read_int bb size (off + j * size) = Ok (word_of size u)) ->
  stores size off us bb bb' -> bb' = bb.
Proof.
  intros size off us bb bb' Hs Hl H [S1 [S2 S3]]. apply list_ext. intros i.
  destruct (Nat.lt_ge_cases i off); [apply S3; auto|].
  destruct (Nat.lt_ge_cases i (off + List.length us * size)); [|apply S3; auto].
  destruct (nth_in_cell size off (List.length us) i Hs ltac:(lia)) as [j [Hj Hi]].
  apply nth_error_Some in Hj. destruct (nth_error us j) as [u|] eqn:E; [|congruence].
  pose proof (S2 j u E) as A. pose proof (H j u E) as B.
  apply bb_read_int_Ok in A. apply bb_read_int_Ok in B. destruct A as [A1 A2]. destruct B as [B1 B2].
  rewrite A2 in B2. apply le_decode_inj in B2; [|rewrite !slice_length by lia; auto].
  assert (nth_error (slice bb' (off + j * size) size) (i - (off + j * size))
          = nth_error (slice bb (off + j * size) size) (i - (off + j * size))) as K by congruence.
  rewrite !nth_error_slice in K by lia. replace (off + j * size + (i - (off + j * size))) with i in K by lia. auto.
Qed.

Lemma array_write_back : forall t len f off bb, 0 < pt_size t ->
  off + len * pt_size t <= List.length bb ->
  (forall j, j < len -> exists u, bb_read_int bb (pt_size t) (off + j * pt_size t) = Ok u /\ rewritable t f u) ->
  exists s, array_get_text t len f off bb = Ok s /\ array_set_text t len f 0 off s bb = Ok (true, bb).
Proof.
  intros t len f off bb Hp Hl H.
  destruct (array_get_list_rewritable t f len off bb Hl H) as [l [us [L1 [L2 [L3 [L4 L5]]]]]].
  exists (join (lit " ") l). unfold array_get_text. rewrite L1. split; auto.
  assert (split (join (lit " ") l) array_delimiters true = l) as Es.
  { apply (split_join_merge array_delimiters " "%char l); [simpl; auto|]. auto. }
  pose proof (Forall2_len _ _ _ _ _ L2) as LL.
  destruct (array_set_text_Ok t len f 0 off (join (lit " ") l) l us bb) as [bb' [E S]]; auto; try lia.
  { apply split_merge_spec. auto. }
  rewrite Nat.mul_0_l, Nat.add_0_r in S. rewrite E. f_equal. f_equal.
  eapply stores_same; eauto. nia.
Qed.

(** ** Index in the path *)

Lemma array_index_digits : forall len s ds junk more, Forall2 dec_digit s ds -> ds <> [] ->
  (match junk with c :: _ => forall d, ~ dec_digit c d | [] => True end) ->
  (Z.of_nat len <= 2 ^ 64)%Z ->
  array_index len ((s ++ junk) :: more)
  = if (Z.of_nat len <=? positional 10 ds)%Z then Err
    else match more with [] => Ok (Some (Z.to_nat (positional 10 ds))) | _ => Err end.
Proof.
  intros len s ds junk more H Hd Hj Hl. cbn [array_index].
  apply Forall2_good10 in H. rewrite (stream_int_digits10 t_uint64 s ds junk H Hd).
  - pose proof (positional_nonneg 10 s ds ltac:(lia) H) as Hp.
    unfold in_ctype. change (ct_lo t_uint64) with 0%Z. change (ct_hi t_uint64) with 18446744073709551615%Z.
    change (2 ^ 64)%Z with 18446744073709551616%Z in Hl.
    destruct (Z.leb_spec 0 (positional 10 ds)); [|lia]. cbn [andb].
    destruct (Z.leb_spec (positional 10 ds) 18446744073709551615); auto.
    destruct (Z.leb_spec (Z.of_nat len) (positional 10 ds)); auto. lia.
  - destruct junk as [|c junk]; auto. intros d Hg. apply (Hj d). apply good10. auto.
Qed.

(** ** Strings *)

Lemma string_set_spec : forall max s off bb, off + (max + 1) <= List.length bb ->
  (List.length s <= max ->
     exists bb', string_set max s off bb = Ok bb' /\ List.length bb' = List.length bb
       /\ slice bb' off (List.length s + 1) = s ++ [zero]
       /\ (forall i, i < off \/ off + List.length s < i -> nth_error bb' i = nth_error bb i))
  /\ (max < List.length s -> string_set max s off bb = Err).
Proof.
  intros max s off bb Hb. unfold string_set, string_size. split; intros Hl.
  - destruct (Nat.leb_spec (max + 1) (List.length s)); [lia|].
    assert (List.length (s ++ [zero]) = List.length s + 1) as HL by (rewrite app_length; auto).
    exists (overwrite bb off (s ++ [zero])). split; [apply bb_write_string_Ok; split; auto; unfold bb_size; lia|].
    split; [apply overwrite_length; lia|]. split.
    + rewrite <- HL. apply slice_overwrite_same. lia.
    + intros i Hi. apply nth_error_overwrite_out; lia.
  - destruct (Nat.leb_spec (max + 1) (List.length s)); auto. lia.
Qed.

Lemma string_set_get : forall max s off bb bb', ~ In zero s ->
  string_set max s off bb = Ok bb' -> string_get off bb' = Ok s.
Proof.
  intros max s off bb bb' Hz H. unfold string_set in H. destruct (_ <=? _); [discriminate|].
  unfold string_get. eapply bb_write_string_read; eauto.
Qed.

(** Embedded NUL characters cut the string. *)
Lemma string_set_get_cut : forall max s r off bb bb', ~ In zero s ->
  string_set max (s ++ zero :: r) off bb = Ok bb' -> string_get off bb' = Ok s.
Proof.
  intros max s r off bb bb' Hz H. unfold string_set in H. destruct (_ <=? _); [discriminate|].
  apply bb_write_string_Ok in H. destruct H as [Hf ->]. unfold string_get, bb_read_string.
  rewrite app_length in Hf. cbn [List.length] in Hf.
  unfold bb_access_ok, bb_size. rewrite overwrite_length by (rewrite !app_length; simpl; lia).
  destruct (Nat.leb_spec (off + 1) (List.length bb)); [|lia].
  rewrite skipn_overwrite_at by (rewrite !app_length; simpl; lia).
  rewrite <- !app_assoc. cbn [app]. rewrite c_string_app by auto. auto.
Qed.

Lemma in_skipn_nth : forall A (l : list A) off x, In x (skipn off l) <-> exists i, nth_error l (off + i) = Some x.
Proof.
  intros A l. induction l as [|a l IH]; intros [|off] x; cbn [skipn].
  - split; [intros []|]. intros [[|i] H]; discriminate.
  - split; [intros []|]. intros [i H]; discriminate.
  - split; intros H; [apply In_nth_error in H; auto|]. destruct H as [i H]. eapply nth_error_In; eauto.
  - rewrite IH. simpl. tauto.
Qed.

(** A terminated string parameter is read from its own bytes only. *)
Lemma string_get_terminated : forall max off bb, terminated max off bb ->
  exists s, string_get off bb = Ok s /\ List.length s <= max /\ ~ In zero s
    /\ slice bb off (List.length s + 1) = s ++ [zero].
Proof.
  intros max off bb [i [Hi H]].
  assert (off + i < List.length bb) as Hb by (apply nth_error_Some; congruence).
  unfold string_get, bb_read_string, bb_access_ok, bb_size.
  destruct (Nat.leb_spec (off + 1) (List.length bb)); [|lia].
  destruct (c_string (skipn off bb)) as [s|] eqn:E.
  - apply c_string_Some in E. destruct E as [r [E Hz]]. exists s. split; auto.
    assert (List.length s <= i) as Hs.
    { destruct (Nat.le_gt_cases (List.length s) i) as [|Hg]; auto. exfalso. apply Hz.
      rewrite <- (firstn_skipn off bb) in H. rewrite nth_error_app2 in H by (rewrite firstn_length; lia).
      rewrite firstn_length_le in H by lia. replace (off + i - off) with i in H by lia. rewrite E in H.
      rewrite nth_error_app1 in H by auto. eapply nth_error_In; eauto. }
    split; [lia|]. split; auto. unfold slice. rewrite E.
    change (zero :: r) with ([zero] ++ r). rewrite app_assoc.
    replace (List.length s + 1) with (List.length (s ++ [zero])) by (rewrite app_length; auto).
    rewrite firstn_app, Nat.sub_diag, firstn_all. cbn [firstn]. apply app_nil_r.
  - exfalso. apply c_string_None in E. apply E. apply in_skipn_nth. eauto.
Qed.

Lemma string_set_terminated : forall max s off bb bb', string_set max s off bb = Ok bb' -> terminated max off bb'.
Proof.
  intros max s off bb bb' H. unfold string_set, string_size in H.
  destruct (Nat.leb_spec (max + 1) (List.length s)); [discriminate|].
  apply bb_write_string_Ok in H. destruct H as [Hf ->]. unfold bb_size in Hf.
  exists (List.length s). split; [lia|].
  rewrite nth_error_overwrite_in by (rewrite app_length; simpl; lia).
  replace (off + List.length s - off) with (List.length s) by lia.
  rewrite nth_error_app2 by lia. rewrite Nat.sub_diag. auto.
Qed.

(** ** Texts of elements *)

(** Each element alone can be read and written back. *)
Definition cells_rewritable (t : ptype) (f : fmt) (n off : nat) (bb : blackboard) : Prop :=
  forall j, j < n -> exists s, param_get_str t f (off + j * pt_size t) bb = Ok s
    /\ s <> [] /\ (forall c, In c s -> ~ In c array_delimiters)
    /\ param_set_str t f s (off + j * pt_size t) bb = Ok bb.

Lemma array_write_back_cells : forall t len f off bb, 0 < pt_size t ->
  off + len * pt_size t <= List.length bb -> cells_rewritable t f len off bb ->
  exists s, array_get_text t len f off bb = Ok s /\ array_set_text t len f 0 off s bb = Ok (true, bb).
Proof.
  intros t len f off bb Hp Hl H. apply array_write_back; auto. intros j Hj.
  destruct (H j Hj) as [s [G [N [D S]]]]. unfold param_get_str in G.
  destruct (bb_read_int bb (pt_size t) (off + j * pt_size t)) as [u| | |] eqn:E; try discriminate.
  cbn [obind] in G. exists u. split; auto. unfold param_set_str in S.
  destruct (to_bb_str t f s) as [u'| | |] eqn:E2; try discriminate. cbn [obind] in S.
  exists s, u'. repeat split; auto.
  assert (off + j * pt_size t + pt_size t <= List.length bb) as Hb by nia.
  destruct (write_read_word bb u' (pt_size t) (off + j * pt_size t) Hb) as [bb' [W1 [_ [W3 _]]]].
  rewrite S in W1. inversion W1; subst bb'. congruence.
Qed.

Lemma delim_codes : forall c, In c array_delimiters -> (bval c = 44 \/ bval c = 32 \/ 9 <= bval c <= 13)%Z.
Proof.
  intros c H. unfold array_delimiters, default_delimiters in H. simpl in H.
  repeat (destruct H as [<-|H]; [cbv; intuition discriminate|]). destruct H.
Qed.

Lemma forall2_in : forall A B (R : A -> B -> Prop) l1 l2 x, Forall2 R l1 l2 -> In x l1 -> exists y, R x y.
Proof. intros A B R l1 l2 x H. induction H; intros []; subst; eauto. Qed.

Lemma dec_numeral_word : forall s v, dec_numeral s v -> s <> [] /\ forall c, In c s -> ~ In c array_delimiters.
Proof.
  intros s v [ds [H [_ K]]]. split.
  - intros ->. inversion H; subst. destruct K as [K|[d [r [K _]]]]; discriminate.
  - intros c Hc Hd. apply delim_codes in Hd. destruct (forall2_in _ _ _ _ _ _ H Hc) as [d Hdd].
    unfold dec_digit in Hdd. lia.
Qed.

Lemma canon_dec_word : forall s v, canon_dec s v -> s <> [] /\ forall c, In c s -> ~ In c array_delimiters.
Proof.
  intros s v [[_ H]|[_ [r [-> H]]]]; [eapply dec_numeral_word; eauto|].
  apply dec_numeral_word in H. split; [discriminate|]. intros c [<-|Hc]; [|apply H; auto].
  intros Hd. apply delim_codes in Hd. change (bval "-"%char) with 45%Z in Hd. lia.
Qed.

Lemma canon_hex_word : forall b s v, canon_hex b s v -> s <> [] /\ forall c, In c s -> ~ In c array_delimiters.
Proof.
  intros b s v [r [ds [-> [_ [H _]]]]]. split; [discriminate|]. intros c Hc Hd. apply delim_codes in Hd.
  destruct Hc as [<-|[<-|Hc]].
  - change (bval "0"%char) with 48%Z in Hd. lia.
  - change (bval "x"%char) with 120%Z in Hd. lia.
  - destruct (forall2_in _ _ _ _ _ _ H Hc) as [d Hdd]. unfold upper_hex_digit, dec_digit in Hdd. lia.
Qed.

(** Arrays of integers. *)
Lemma array_int_write_back : forall sg b lo hi len f off bb, pt_wf (PInt sg b lo hi) = true ->
  off + len * b <= List.length bb ->
  (forall j, j < len -> exists v, bb_read_int bb b (off + j * b) = Ok (word_of b v) /\ (lo <= v <= hi)%Z) ->
  exists s, array_get_text (PInt sg b lo hi) len f off bb = Ok s
    /\ array_set_text (PInt sg b lo hi) len f 0 off s bb = Ok (true, bb).
Proof.
  intros sg b lo hi len f off bb Hwf Hl H. pose proof Hwf as Hw. apply pt_wf_int in Hw. destruct Hw as [Hb [W1 [W2 W3]]].
  pose proof (size_ok_pos b Hb) as Hb0.
  apply array_write_back_cells; auto. intros j Hj. cbn [pt_size].
  destruct (H j Hj) as [v [E Hv]]. assert (off + j * b + b <= List.length bb) as Hf by nia.
  destruct (int_write_back sg b lo hi f (off + j * b) bb v Hwf Hf E Hv) as [s [G S]].
  exists s. split; auto.
  assert (if f_raw f && f_hex f then canon_hex b s (word_of b v) else canon_dec s v) as C.
  { unfold param_get_str in G. cbn [pt_size] in G. rewrite E in G. cbn [obind from_bb_str] in G.
    inversion G; subst s.
    apply int_to_str_canon; auto. all: lia. }
  assert (s <> [] /\ forall c, In c s -> ~ In c array_delimiters) as [N D].
  { destruct (f_raw f && f_hex f); [eapply canon_hex_word; eauto|eapply canon_dec_word; eauto]. }
  auto.
Qed.

(** Arrays of booleans. *)
Lemma array_bool_write_back : forall len f off bb, off + len <= List.length bb ->
  (forall j, j < len -> nth_error bb (off + j) = Some zero \/ nth_error bb (off + j) = Some (byte_of 1)) ->
  exists s, array_get_text PBool len f off bb = Ok s /\ array_set_text PBool len f 0 off s bb = Ok (true, bb).
Proof.
  intros len f off bb Hl H. apply array_write_back; cbn [pt_size]; try lia. intros j Hj. rewrite Nat.mul_1_r.
  assert (exists c, nth_error bb (off + j) = Some c /\ (c = zero \/ c = byte_of 1)) as [c [Ec Hc]].
  { destruct (H j Hj) as [K|K]; eauto. }
  exists (bval c). split.
  - apply bb_read_int_Ok. split; [lia|]. apply nth_error_split in Ec. destruct Ec as [l1 [l2 [-> L1]]].
    unfold slice. rewrite <- L1, skipn_app, Nat.sub_diag, skipn_all. cbn [app skipn firstn le_decode]. lia.
  - destruct Hc as [-> | ->]; destruct f as [[|] [|]]; eexists; eexists; (split; [reflexivity|]);
      (split; [discriminate|]); (split; [|split; [reflexivity|vm_compute; reflexivity]]);
      cbn; intros c [<-|Hc] Hd; try (apply delim_codes in Hd; cbv in Hd; intuition discriminate);
      repeat (destruct Hc as [<-|Hc]; [apply delim_codes in Hd; cbv in Hd; intuition discriminate|]); destruct Hc.
Qed.

(** ** Vectors *)
Lemma array_set_vals_Ok : forall t f vals us, Forall2 (fun v u => to_bb_val t f v = Ok u) vals us ->
  forall off bb, off + List.length us * pt_size t <= List.length bb ->
  exists bb', array_set_vals t f vals off bb = Ok (true, bb') /\ stores (pt_size t) off us bb bb'.
Proof.
  intros t f vals us H. induction H as [|v u vals us Hv H IH]; intros off bb Hl.
  - exists bb. split; auto. apply stores_nil.
  - cbn [array_set_vals List.length] in *. rewrite Hv.
    destruct (write_read_word bb u (pt_size t) off ltac:(lia)) as [bb1 [W1 [W2 _]]].
    rewrite W1. cbn [obind]. destruct (IH (off + pt_size t) bb1 ltac:(lia)) as [bb2 [E2 S2]].
    exists bb2. split; auto. apply (stores_cons _ _ _ _ _ bb1); auto; lia.
Qed.

Lemma array_get_vals_spec : forall t k n off bb l, array_get_vals t k n off bb = Ok l ->
  List.length l = n /\ forall j, j < n -> exists v, nth_error l j = Some v
     /\ param_get_val t k (off + j * pt_size t) bb = Ok v.
Proof.
  intros t k n. induction n as [|n IH]; intros off bb l H; cbn [array_get_vals] in H.
  - inversion H; subst. split; auto. intros j Hj. lia.
  - destruct (param_get_val t k off bb) as [v| | |] eqn:E; try discriminate. cbn [obind] in H.
    destruct (array_get_vals t k n (off + pt_size t) bb) as [r| | |] eqn:E2; try discriminate. cbn [obind] in H.
    inversion H; subst l. destruct (IH _ _ _ E2) as [L K]. split; [simpl; auto|].
    intros [|j] Hj; simpl.
    + exists v. rewrite Nat.add_0_r. auto.
    + destruct (K j ltac:(lia)) as [s [H1 H2]]. exists s. split; auto.
      replace (off + (pt_size t + j * pt_size t)) with (off + pt_size t + j * pt_size t) by lia. auto.
Qed.

Lemma array_set_default_spec : forall t n off bb, off + n * pt_size t <= List.length bb ->
  exists bb', array_set_default t n off bb = Ok bb' /\ stores (pt_size t) off (repeat (pt_default t) n) bb bb'.
Proof.
  intros t n. induction n as [|n IH]; intros off bb Hl.
  - exists bb. split; auto. apply stores_nil.
  - cbn [array_set_default repeat]. unfold param_set_default.
    destruct (write_read_word bb (pt_default t) (pt_size t) off ltac:(lia)) as [bb1 [W1 [W2 _]]].
    rewrite W1. cbn [obind]. destruct (IH (off + pt_size t) bb1 ltac:(lia)) as [bb2 [E2 S2]].
    exists bb2. split; auto. apply (stores_cons _ _ _ _ _ bb1); auto. rewrite repeat_length. lia.
Qed.
