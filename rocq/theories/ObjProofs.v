(** Proofs about subsystem objects. *)
From Coq Require Import List Arith ZArith Bool Ascii String Lia.
From Verif Require Import Base BaseProofs TextModel TextSpec TextProofs BlackboardModel BlackboardProofs ParamTypeModel ArrayModel TreeModel TreeSpec TreeProofs
  SyncModel CriterionModel DomainModel MgrModel LoadModel LoadSpec LoadProofs IntProofs ObjModel ObjSpec.
Import ListNotations.
Local Open Scope nat_scope.

(** ** The memory *)

Lemma slice_mid : forall (x bs z : list byte), slice (x ++ bs ++ z) (List.length x) (List.length bs) = bs.
Proof.
  intros. unfold slice. rewrite skipn_app, skipn_all, Nat.sub_diag. cbn [skipn app]. rewrite firstn_app, firstn_all, Nat.sub_diag. cbn [firstn]. apply app_nil_r.
Qed.

Lemma overwrite_mid : forall (x old bs z : list byte), List.length old = List.length bs -> overwrite (x ++ old ++ z) (List.length x) bs = x ++ bs ++ z.
Proof.
  intros x old bs z H. unfold overwrite. rewrite firstn_app, firstn_all, Nat.sub_diag. cbn [firstn]. rewrite app_nil_r. do 2 f_equal.
  rewrite app_assoc, skipn_app, skipn_all2 by (rewrite app_length; lia). rewrite app_length, H. rewrite Nat.sub_diag. auto.
Qed.

Lemma run_acts : forall A (p : prog A) m i a m', acts m i p a m' -> forall pre post,
  run p (pre ++ m ++ post) (List.length pre + i) = Ok (a, pre ++ m' ++ post) /\ List.length m' = List.length m.
Proof.
  intros A p m i a m' H. induction H as [m i a|x bs z i k a m' L H IH|x old bs z i k a m' L L' H IH]; intros pre post.
  - split; auto.
  - destruct (IH pre post) as [E E']. split; auto. cbn [run]. subst i. unfold bb_read.
    assert (bb_access_ok (pre ++ (x ++ bs ++ z) ++ post) (List.length pre + List.length x) (List.length bs) = true) as ->
      by (apply bb_access_ok_spec; rewrite !app_length; lia).
    cbn [obind]. replace (pre ++ (x ++ bs ++ z) ++ post) with ((pre ++ x) ++ bs ++ (z ++ post)) by (rewrite <- !app_assoc; auto).
    rewrite <- app_length, slice_mid. rewrite app_length.
    replace ((pre ++ x) ++ bs ++ (z ++ post)) with (pre ++ (x ++ bs ++ z) ++ post) by (rewrite <- !app_assoc; auto).
    rewrite <- Nat.add_assoc. exact E.
  - destruct (IH pre post) as [E E']. split; [|rewrite E', !app_length; lia]. cbn [run]. subst i. unfold bb_write.
    assert (bb_access_ok (pre ++ (x ++ old ++ z) ++ post) (List.length pre + List.length x) (List.length bs) = true) as ->
      by (apply bb_access_ok_spec; rewrite !app_length; lia).
    cbn [obind]. replace (pre ++ (x ++ old ++ z) ++ post) with ((pre ++ x) ++ old ++ (z ++ post)) by (rewrite <- !app_assoc; auto).
    rewrite <- app_length, overwrite_mid by auto. rewrite app_length.
    replace ((pre ++ x) ++ bs ++ (z ++ post)) with (pre ++ (x ++ bs ++ z) ++ post) by (rewrite <- !app_assoc; auto).
    rewrite <- Nat.add_assoc. exact E.
Qed.

Lemma split3 : forall (m : list byte) i n, i + n <= List.length m -> exists x bs z, m = x ++ bs ++ z /\ List.length x = i /\ List.length bs = n.
Proof.
  intros m i n H. exists (firstn i m), (firstn n (skipn i m)), (skipn n (skipn i m)). rewrite !firstn_skipn. split; auto.
  rewrite !firstn_length, skipn_length. lia.
Qed.

Lemma acts_run : forall A (p : prog A) pre m i a bb', run p (pre ++ m) (List.length pre + i) = Ok (a, bb') ->
  exists m', acts m i p a m' /\ bb' = pre ++ m'.
Proof.
  intros A p. induction p as [a0| | |n k IH|bs k IH]; intros pre m i a bb' E; cbn [run] in E; try discriminate.
  - injection E as <- <-. exists m. split; auto. constructor.
  - unfold bb_read in E. destruct (bb_access_ok (pre ++ m) (List.length pre + i) n) eqn:B; [|discriminate]. cbn [obind] in E.
    apply bb_access_ok_spec in B. rewrite app_length in B. destruct (split3 m i n) as [x [bs [z [-> [<- <-]]]]]; [lia|].
    replace (pre ++ x ++ bs ++ z) with ((pre ++ x) ++ bs ++ z) in E at 1 by (rewrite <- !app_assoc; auto).
    rewrite <- (app_length pre x) in E at 1. rewrite slice_mid in E. rewrite <- Nat.add_assoc in E.
    destruct (IH _ _ _ _ _ _ E) as [m' [E1 E2]]. exists m'. split; auto. constructor; auto.
  - unfold bb_write in E. destruct (bb_access_ok (pre ++ m) (List.length pre + i) (List.length bs)) eqn:B; [|discriminate]. cbn [obind] in E.
    apply bb_access_ok_spec in B. rewrite app_length in B. destruct (split3 m i (List.length bs)) as [x [old [z [-> [<- L]]]]]; [lia|].
    replace (pre ++ x ++ old ++ z) with ((pre ++ x) ++ old ++ z) in E by (rewrite <- !app_assoc; auto).
    rewrite <- (app_length pre x) in E at 1. rewrite overwrite_mid in E by auto. rewrite <- !app_assoc, <- Nat.add_assoc in E.
    destruct (IH _ _ _ _ _ E) as [m' [E1 E2]]. exists m'. split; auto. apply acts_write; auto.
Qed.

Lemma reads_only_run : forall A (p : prog A), reads_only p -> forall bb o a bb', run p bb o = Ok (a, bb') -> bb' = bb.
Proof.
  intros A p R. induction R as [a0| | |n k R IH]; intros bb o a bb' E; cbn [run] in E; try discriminate.
  - injection E as <- <-. auto.
  - destruct (bb_read bb n o) as [bs| | |]; cbn [obind] in E; try discriminate. exact (IH _ _ _ _ _ E).
Qed.

Lemma acts_unique : forall A (p : prog A) m i a m', acts m i p a m' -> forall a2 m2, acts m i p a2 m2 -> a2 = a /\ m2 = m'.
Proof.
  intros A p m i a m' H a2 m2 H2. destruct (run_acts _ _ _ _ _ _ H [] []) as [E _], (run_acts _ _ _ _ _ _ H2 [] []) as [E2 _].
  rewrite E in E2. injection E2 as E3 E4. rewrite !app_nil_r in E4. auto.
Qed.

(** ** Synchronisation *)

Lemma sync_back_ok : forall e ob pre m post m', ob_alive ob = true -> acts m 0 (ob_receive ob) true m' ->
  obj_sync e (List.length pre) ob true (pre ++ m ++ post) = Ok (true, pre ++ m' ++ post).
Proof.
  intros e ob pre m post m' L H. unfold obj_sync. rewrite L. destruct (run_acts _ _ _ _ _ _ H pre post) as [E _]. rewrite Nat.add_0_r in E. rewrite E. auto.
Qed.

Lemma defaults_frame : forall e pre m post, elem_wf e = true -> List.length m = footprint e ->
  exists m', set_defaults e (List.length pre) 0 (pre ++ m ++ post) = Ok (pre ++ m' ++ post) /\ List.length m' = footprint e
    /\ (forall p c, elem_at e p = Some c -> is_param (e_kind c) = true -> holds_default (e_kind c) (offset_in e p (List.length pre)) (pre ++ m' ++ post)).
Proof.
  intros e pre m post W L. destruct (set_defaults_spec e (List.length pre) (pre ++ m ++ post) W) as [bb' [E [L' [F D]]]]; [rewrite !app_length; lia|].
  rewrite !app_length in L'.
  destruct (split3 bb' (List.length pre) (footprint e)) as [x [m' [z [-> [Lx Lm]]]]]; [lia|].
  rewrite !app_length in L'.
  assert (x = pre).
  { apply list_ext. intros i. destruct (Nat.lt_ge_cases i (List.length pre)) as [Hi|Hi].
    - specialize (F i (or_introl Hi)). rewrite !nth_error_app1 in F by lia. auto.
    - rewrite !(proj2 (nth_error_None _ _)) by lia. auto. }
  assert (z = post).
  { apply list_ext. intros i. specialize (F (List.length pre + (List.length m' + i)) ltac:(lia)).
    rewrite (nth_error_app2 x) in F by lia. rewrite (nth_error_app2 pre) in F by lia. subst x. replace (List.length pre + (List.length m' + i) - List.length pre) with (List.length m' + i) in F by lia.
    rewrite !nth_error_app2 in F by lia. replace (List.length m' + i - List.length m') with i in F by lia. replace (List.length m' + i - List.length m) with i in F by lia. auto. }
  subst x z. exists m'. auto.
Qed.

Lemma sync_failed : forall e ob pre m post m1, elem_wf e = true -> List.length m = footprint e ->
  (ob_alive ob = false /\ m1 = m \/ ob_alive ob = true /\ acts m 0 (ob_receive ob) false m1) ->
  exists m', obj_sync e (List.length pre) ob true (pre ++ m ++ post) = Ok (false, pre ++ m' ++ post) /\ List.length m' = footprint e
    /\ set_defaults e (List.length pre) 0 (pre ++ m1 ++ post) = Ok (pre ++ m' ++ post)
    /\ (forall p c, elem_at e p = Some c -> is_param (e_kind c) = true -> holds_default (e_kind c) (offset_in e p (List.length pre)) (pre ++ m' ++ post)).
Proof.
  intros e ob pre m post m1 W L [[A ->]|[A H]]; unfold obj_sync; rewrite A.
  - destruct (defaults_frame e pre m post W L) as [m' [E [L' D]]]. exists m'. rewrite E. auto.
  - destruct (run_acts _ _ _ _ _ _ H pre post) as [R L1]. rewrite Nat.add_0_r in R. rewrite R. cbn [obind fst snd].
    destruct (defaults_frame e pre m1 post W) as [m' [E [L' D]]]; [lia|]. exists m'. rewrite E. auto.
Qed.

Lemma back_object_one : forall y objs answer s bb, elem_wf (sy_root y) = true -> List.length bb = footprint (sy_root y) ->
  (forall o e, sy_own y o = Some s -> elem_at (sy_root y) o = Some e -> answers (objs s) (footprint e) (answer s)) ->
  back_object y objs s bb = back_one y answer s bb.
Proof.
  intros y objs answer s bb W L A. unfold back_object, back_one.
  destruct (find _ _) as [[t p]|] eqn:F; auto. destruct (found_owner _ _ _ _ F) as [O _].
  destruct (elem_at (sy_root y) p) as [e|] eqn:E; auto. specialize (A p e O E).
  pose proof (inside_in p (sy_root y) e 0 W E) as B. fold (offset (sy_root y) p) in B.
  destruct (split3 bb (offset (sy_root y) p) (footprint e)) as [pre [m [post [-> [Lp Lm]]]]]; [lia|].
  rewrite <- Lp in *. destruct (answer s) as [bs|]; cbn [answers] in A.
  - destruct A as [A1 A2]. specialize (A2 m Lm). rewrite (sync_back_ok e _ pre m post bs A1 A2).
    destruct (run_acts _ _ _ _ _ _ A2 [] []) as [_ L2]. rewrite L2, Lm, Nat.eqb_refl. unfold bb_write_bytes.
    assert (bb_access_ok (pre ++ m ++ post) (List.length pre) (List.length bs) = true) as -> by (apply bb_access_ok_spec; rewrite !app_length; lia).
    rewrite overwrite_mid by auto. reflexivity.
  - unfold obj_sync. destruct (ob_alive (objs s)) eqn:V.
    + destruct A as [A|A]; [congruence|]. specialize (A m Lm). destruct (run_acts _ _ _ _ _ _ A pre post) as [R _]. rewrite Nat.add_0_r in R. rewrite R.
      cbn [obind fst snd]. unfold omap. destruct (set_defaults e (List.length pre) 0 (pre ++ m ++ post)); reflexivity.
    + unfold omap. destruct (set_defaults e (List.length pre) 0 (pre ++ m ++ post)); reflexivity.
Qed.

Lemma back_objects : forall y objs answer, elem_wf (sy_root y) = true ->
  (forall s o e, sy_own y o = Some s -> elem_at (sy_root y) o = Some e -> answers (objs s) (footprint e) (answer s)) ->
  forall ss bb, List.length bb = footprint (sy_root y) -> ofold (back_object y objs) ss bb = ofold (back_one y answer) ss bb.
Proof.
  intros y objs answer W A. assert (answers_ok y answer) as AO.
  { intros o e x bytes O E Ea. specialize (A x o e O E). rewrite Ea in A. cbn [answers] in A. destruct A as [_ A].
    specialize (A (repeat zero (footprint e)) (repeat_length _ _)). destruct (run_acts _ _ _ _ _ _ A [] []) as [_ L]. rewrite L, repeat_length. auto. }
  intros ss. induction ss as [|s ss IH]; intros bb L; auto. cbn [ofold].
  rewrite (back_object_one y objs answer s bb W L) by (intros o e; apply A).
  destruct (back_one_ok y answer s bb W AO L) as [b1 [H1 [H2 _]]]. rewrite H1. cbn [obind]. apply IH; auto.
Qed.

(** ** The TEST subsystem *)

Lemma acts_map : forall A B (f : A -> B) (p : prog A) m i a m', acts m i p a m' -> acts m i (pbind p (fun x => PEnd (f x))) (f a) m'.
Proof.
  intros A B f p m i a m' H. induction H as [m i a|x bs z i k a m' L H IH|x old bs z i k a m' L L' H IH]; cbn [pbind].
  - constructor.
  - apply (acts_read x bs z i (fun b => pbind (k b) _)); auto.
  - apply acts_write; auto.
Qed.

Lemma test_write_acts : forall k size blocks ts, Forall (fun b => List.length b = size) blocks -> Forall2 (fun b t => test_text k b = Some t) blocks ts ->
  forall pre, acts (pre ++ List.concat blocks) (List.length pre) (test_write k size (List.length blocks)) (List.concat (map (fun t => t ++ newline) ts)) (pre ++ List.concat blocks).
Proof.
  intros k size blocks ts L H. induction H as [|b t blocks ts E H IH]; intros pre.
  - constructor.
  - inversion L as [|? ? L1 L2]; subst. cbn [List.length test_write List.concat map].
    apply (acts_read pre b (List.concat blocks)); auto. rewrite E.
    specialize (IH L2 (pre ++ b)). rewrite <- app_assoc, app_length in IH.
    apply (acts_map _ _ (fun r => t ++ newline ++ r)) in IH. rewrite <- (app_assoc t). exact IH.
Qed.

Lemma space_blank : forall c, is_space c = true <-> blank c.
Proof.
  intros c. unfold is_space, blank, chr_code, bval. rewrite orb_true_iff, andb_true_iff, !Z.leb_le, Z.eqb_eq. lia.
Qed.

Lemma word_app : forall w r, Forall (fun c => ~ blank c) w -> (r = [] \/ exists c r', r = c :: r' /\ blank c) -> word (w ++ r) = (w, r).
Proof.
  intros w r F R. induction F as [|c w Hc F IH].
  - destruct R as [->|[c [r' [-> B]]]]; auto. cbn [app word]. apply space_blank in B. rewrite B. auto.
  - cbn [app word]. destruct (is_space c) eqn:E; [apply space_blank in E; contradiction|]. rewrite IH. auto.
Qed.

Lemma next_word_spec : forall g w r, Forall blank g -> w <> [] -> Forall (fun c => ~ blank c) w -> (r = [] \/ exists c r', r = c :: r' /\ blank c) ->
  next_word (g ++ w ++ r) = (w, r).
Proof.
  intros g w r G N F R. unfold next_word. induction G as [|c g Hc G IH].
  - cbn [app]. destruct w as [|c w]; [congruence|]. inversion F; subst. cbn [app]. rewrite skip_ws_head.
    + apply (word_app (c :: w)); auto.
    + destruct (is_space c) eqn:E; auto. apply space_blank in E. contradiction.
  - cbn [app skip_ws]. apply space_blank in Hc. rewrite Hc. auto.
Qed.

Lemma test_read_acts : forall k size ts blocks, Forall2 (fun t b => test_bytes k size t = PEnd b /\ List.length b = size) ts blocks ->
  forall text pre old, in_words ts text -> List.length old = size * List.length ts ->
  acts (pre ++ old) (List.length pre) (test_read k size (List.length ts) text) tt (pre ++ List.concat blocks).
Proof.
  intros k size ts blocks H. induction H as [|t b ts blocks [E L] H IH]; intros text pre old W Lo.
  - cbn [List.length] in Lo. destruct old; [|cbn in Lo; lia]. constructor.
  - inversion W as [|g w ws r G N F R W']; subst. cbn [List.length test_read List.concat]. rewrite (next_word_spec g t r) by auto. cbn [fst snd]. rewrite E. cbn [pbind].
    cbn [List.length] in Lo. rewrite Nat.mul_succ_r in Lo. destruct (split3 old 0 (List.length b)) as [x [o1 [o2 [-> [Lx Lb]]]]]; [lia|]. destruct x; [|discriminate]. cbn [app] in *.
    apply acts_write; auto. specialize (IH r (pre ++ b) o2 W'). rewrite <- !app_assoc, app_length in IH. apply IH.
    rewrite app_length in Lo. lia.
Qed.

Lemma lower_digit_spec : forall d, (0 <= d < 16)%Z -> lower_hex (lower_digit (digit_char d)) d.
Proof.
  intros d H.
  assert (d = 0 \/ d = 1 \/ d = 2 \/ d = 3 \/ d = 4 \/ d = 5 \/ d = 6 \/ d = 7 \/ d = 8 \/ d = 9 \/ d = 10 \/ d = 11 \/ d = 12 \/ d = 13 \/ d = 14 \/ d = 15)%Z as K by lia.
  repeat (destruct K as [->|K]; [first [left; split; [lia|reflexivity]|right; split; [lia|reflexivity]]|]). subst. right; split; [lia|reflexivity].
Qed.

Lemma test_text_binary : forall bs, List.length bs <= 4 -> exists t, test_text TBinary bs = Some t /\ binary_word bs t.
Proof.
  intros bs L. unfold test_text. destruct (Nat.leb_spec (List.length bs) 4); [|lia]. eexists. split; [reflexivity|].
  pose proof (le_decode_range bs) as R. destruct (print_base_nolead 16 (le_decode bs)) as [ds [G [D [P N]]]]; [lia|lia|].
  exists (map lower_digit (print_base 16 (le_decode bs))), ds. split; auto. split.
  - clear P N R. induction D as [|c d s ds E D IH]; [constructor|]. inversion G as [|? ? ? ? G1 G2]; subst. constructor; auto.
    apply good16 in G1. apply lower_digit_spec. destruct G1 as [[? _]|[[? _]|[? _]]]; lia.
  - split; [destruct N as [->|[d [r [-> _]]]]; discriminate|]. split; auto. intros Hd. destruct N as [->|[d [r [-> Hn]]]]; auto. contradiction.
Qed.

Lemma binary_word_text : forall bs t, binary_word bs t -> int_text t (le_decode bs) /\ Forall (fun c => ~ blank c) t /\ t <> [] /\ ~ In "-"%char t.
Proof.
  intros bs t [s [ds [-> [F [N [_ <-]]]]]].
  assert (Forall2 hex_digit s ds) as F' by (clear N; induction F as [|c d s ds [H|H] F IH]; constructor; auto; [left|right; left]; auto).
  split; [apply it_hex; auto|].
  assert (Forall (fun c => (48 <= bval c)%Z) s) as B.
  { clear N F'. induction F as [|c d s ds H F IH]; constructor; auto. destruct H as [[? ?]|[? ?]]; lia. }
  split; [|split].
  - constructor; [unfold blank; cbn; lia|]. constructor; [unfold blank; cbn; lia|]. eapply Forall_impl; [|exact B]. intros c Hc K. unfold blank in K. cbv beta in Hc. lia.
  - discriminate.
  - intros [E|[E|E]]; [discriminate E|discriminate E|]. rewrite Forall_forall in B. specialize (B _ E). cbn in B. lia.
Qed.

Lemma test_bytes_binary : forall size t v, size <= 4 -> int_text t v -> (0 <= v < 2 ^ 32)%Z -> ~ In "-"%char t ->
  test_bytes TBinary size t = PEnd (le_encode size v).
Proof.
  intros size t v L I R M. unfold test_bytes. assert (convertTo t_uint32 t = Some v) as ->.
  { apply convertTo_spec; [eapply int_text_no_formfeed; eauto|]. split; auto. split; auto. cbn. lia. }
  destruct (Nat.leb_spec size 4); [auto|lia].
Qed.

Lemma words_lines : forall ts, Forall (fun t => t <> [] /\ Forall (fun c => ~ blank c) t) ts -> forall g, Forall blank g ->
  in_words ts (g ++ List.concat (map (fun t => t ++ newline) ts)).
Proof.
  intros ts H. induction H as [|t ts [N F] H IH]; intros g G; [constructor|].
  cbn [map List.concat]. rewrite <- app_assoc. apply iw_cons; auto.
  - right. exists "010"%char, (List.concat (map (fun t => t ++ newline) ts)). split; auto. unfold blank. cbn. lia.
  - apply (IH newline). constructor; [|constructor]. unfold blank. cbn. lia.
Qed.

Lemma test_text_string : forall bs t, test_text TString bs = Some t <-> string_word bs t.
Proof.
  intros bs t. cbn [test_text]. split.
  - intros E. apply c_string_Some in E. destruct E as [z E]. exists z. tauto.
  - intros [z [-> H]]. apply c_string_app. auto.
Qed.

Lemma test_bytes_string : forall size t, List.length t < size -> test_bytes TString size t = PEnd (t ++ repeat zero (size - List.length t)).
Proof. intros size t H. unfold test_bytes. destruct (Nat.ltb_spec size (List.length t + 1)); [lia|auto]. Qed.

(** ** A whole system of TEST objects *)

Lemma blocks_of : forall size n (m : list byte), List.length m = size * n -> exists blocks, m = List.concat blocks /\ List.length blocks = n /\ Forall (fun b => List.length b = size) blocks.
Proof.
  intros size n. induction n as [|n IH]; intros m L.
  - rewrite Nat.mul_0_r in L. destruct m; [|discriminate]. exists []. auto.
  - rewrite Nat.mul_succ_r in L. destruct (IH (skipn size m)) as [bl [E [Lb F]]]; [rewrite skipn_length; lia|].
    exists (firstn size m :: bl). cbn [List.concat List.length]. rewrite <- E, firstn_skipn. split; auto. split; [lia|]. constructor; auto. rewrite firstn_length. lia.
Qed.

Lemma binary_written : forall size blocks, size <= 4 -> Forall (fun b => List.length b = size) blocks -> exists ts, Forall2 binary_word blocks ts
  /\ Forall2 (fun b t => test_text TBinary b = Some t) blocks ts.
Proof.
  intros size blocks L F. induction F as [|b blocks Lb F IH]; [exists []; auto|]. destruct IH as [ts [I1 I2]].
  destruct (test_text_binary b) as [t [T1 T2]]; [lia|]. exists (t :: ts). auto.
Qed.

Lemma binary_read : forall size blocks ts, size <= 4 -> Forall (fun b => List.length b = size) blocks -> Forall2 binary_word blocks ts ->
  Forall2 (fun t b => test_bytes TBinary size t = PEnd b /\ List.length b = size) ts blocks
  /\ Forall (fun t => t <> [] /\ Forall (fun c => ~ blank c) t) ts.
Proof.
  intros size blocks ts L F W. induction W as [|b t blocks ts B W IH]; [auto|]. inversion F as [|? ? Lb F']; subst. destruct (IH F') as [I1 I2].
  destruct (binary_word_text b t B) as [T1 [T2 [T3 T4]]]. split; constructor; auto. split; auto.
  rewrite (test_bytes_binary (List.length b) t (le_decode b)); auto.
  - rewrite le_encode_decode. auto.
  - pose proof (le_decode_range b) as R. assert (256 ^ Z.of_nat (List.length b) <= 256 ^ 4)%Z by (apply Z.pow_le_mono_r; lia). change (2 ^ 32)%Z with (256 ^ 4)%Z. lia.
Qed.

(** What is sent is read back. *)
Lemma binary_round_trip : forall size n (m : list byte), size <= 4 -> List.length m = size * n ->
  exists text, acts m 0 (test_write TBinary size n) text m
    /\ forall old, List.length old = size * n -> acts old 0 (test_read TBinary size n text) tt m.
Proof.
  intros size n m L Lm. destruct (blocks_of size n m Lm) as [bl [-> [Lb F]]]. destruct (binary_written size bl L F) as [ts [W1 W2]].
  exists (List.concat (map (fun t => t ++ newline) ts)). subst n. split; [exact (test_write_acts TBinary size bl ts F W2 [])|].
  intros old Lo. destruct (binary_read size bl ts L F W1) as [R1 R2]. assert (List.length ts = List.length bl) as Ln by (clear -R1; induction R1; cbn [List.length]; auto). rewrite <- Ln in *.
  apply (test_read_acts TBinary size ts bl R1 _ [] old); auto. exact (words_lines ts R2 [] (Forall_nil _)).
Qed.

Lemma shape_size : forall e size n, elem_wf e = true -> test_shape e = Some (size, n) -> size <= 4 /\ footprint e = size * n.
Proof.
  intros e size n W H. assert (forall t, pt_wf t = true -> 1 <= pt_size t <= 4) as P.
  { intros t Ht. destruct t; cbn [pt_wf pt_size] in *; try lia; repeat rewrite andb_true_iff in Ht; repeat rewrite orb_true_iff in Ht; rewrite !Nat.eqb_eq in Ht; lia. }
  destruct e as [nm k cs]. unfold test_shape in H. cbn [e_kind] in H. destruct k; try discriminate; cbn [elem_wf] in W; rewrite !andb_true_iff in W; injection H as <- <-.
  - destruct W as [W _]. specialize (P _ W). split; [lia|]. cbn [footprint]. rewrite Nat.div_same by lia. lia.
  - destruct W as [[W _] _]. specialize (P _ W). split; [lia|]. cbn [footprint]. unfold array_footprint. rewrite Nat.mul_comm. rewrite Nat.div_mul by lia. lia.
Qed.

Lemma owner_of_inv : forall y s p e, owner_of y s = Some (p, e) -> sy_own y p = Some s /\ elem_at (sy_root y) p = Some e.
Proof.
  intros y s p e H. unfold owner_of in H. destruct (find _ _) as [[t q]|] eqn:F; [|discriminate]. destruct (found_owner _ _ _ _ F) as [O _].
  destruct (elem_at (sy_root y) q) as [e0|] eqn:E; [|discriminate]. injection H as <- <-. auto.
Qed.

Lemma owner_of_own : forall y s p e, own_apart y -> sy_own y p = Some s -> elem_at (sy_root y) p = Some e -> owner_of y s = Some (p, e).
Proof.
  intros y s p e A O E. destruct (find_owner y p s A O ltac:(congruence)) as [t F]. unfold owner_of. rewrite F, E. auto.
Qed.

Lemma binary_shape : forall y dev s p e, elem_wf (sy_root y) = true -> binary_system y dev -> sy_own y p = Some s -> elem_at (sy_root y) p = Some e ->
  td_kind (dev s) = TBinary /\ exists size n, test_shape e = Some (size, n) /\ size <= 4 /\ footprint e = size * n.
Proof.
  intros y dev s p e W [B _] O E. destruct (B p s e O E) as [K [t T]]. split; auto.
  assert (elem_wf e = true) as We.
  { destruct (elem_wf_at p (sy_root y) e W E) as [We|[t' [nm [-> _]]]]; auto. exfalso. cbn [e_kind] in T. destruct T as [T|[len T]]; discriminate T. }
  assert (exists z, test_shape e = Some z) as [[size n] Z] by (unfold test_shape; destruct T as [->|[len ->]]; eauto).
  exists size, n. split; auto. apply (shape_size e size n We Z).
Qed.

(** The file of syncer [s] gives back what the memory [M] holds there. *)
Definition kept_file (y : system) (dev : nat -> test_device) (M : list byte) (f : files) (s : nat) : Prop :=
  forall p e size n, owner_of y s = Some (p, e) -> test_shape e = Some (size, n) ->
  exists text, f (test_path (dev s) e) = Some text
    /\ forall old, List.length old = size * n -> acts old 0 (test_read TBinary size n text) tt (slice M (offset (sy_root y) p) (footprint e)).

Lemma send_one : forall y dev M s f, elem_wf (sy_root y) = true -> own_apart y -> binary_system y dev -> List.length M = footprint (sy_root y) ->
  exists f', test_send_file y dev M s f = Ok f' /\ kept_file y dev M f' s /\ (forall x, kept_file y dev M f x -> kept_file y dev M f' x)
    /\ (forall path, (forall p e, owner_of y s = Some (p, e) -> path <> test_path (dev s) e) -> f' path = f path).
Proof.
  intros y dev M s f W A B L. unfold test_send_file. destruct (owner_of y s) as [[p e]|] eqn:Ow.
  2:{ exists f. split; auto. split; [intros p e size n Ow'; congruence|]. split; auto. }
  destruct (owner_of_inv _ _ _ _ Ow) as [O E]. destruct (binary_shape y dev s p e W B O E) as [K [size [n [Z [Sz Fp]]]]]. rewrite Z, K.
  pose proof (inside_in p (sy_root y) e 0 W E) as R. fold (offset (sy_root y) p) in R.
  destruct (split3 M (offset (sy_root y) p) (footprint e)) as [pre [m [post [EM [Lp Lm]]]]]; [lia|].
  destruct (binary_round_trip size n m Sz ltac:(lia)) as [text [T1 T2]]. destruct (run_acts _ _ _ _ _ _ T1 pre post) as [T3 _].
  rewrite Nat.add_0_r, Lp, <- EM in T3. rewrite T3. cbn [obind fst].
  exists (files_set f (test_path (dev s) e) text). split; auto.
  assert (kept_file y dev M (files_set f (test_path (dev s) e) text) s) as G.
  { intros p' e' size' n' Ow' Z'. rewrite Ow in Ow'. injection Ow' as <- <-. rewrite Z in Z'. injection Z' as <- <-. exists text.
    unfold files_set. rewrite str_eqb_refl. split; auto. intros old Lo. specialize (T2 old Lo).
    replace (slice M (offset (sy_root y) p) (footprint e)) with m; auto. rewrite EM, <- Lp, <- Lm. symmetry. apply slice_mid. }
  split; auto. split.
  - intros x Kx p' e' size' n' Ow' Z'. destruct (owner_of_inv _ _ _ _ Ow') as [O' E'].
    destruct (Kx p' e' size' n' Ow' Z') as [tx [X1 X2]]. unfold files_set. destruct (str_eqb (test_path (dev x) e') (test_path (dev s) e)) eqn:Q.
    + apply str_eqb_eq in Q. assert (p' = p) by (destruct B as [_ B]; apply (B p' x e' p s e); auto). subst p'.
      rewrite O in O'. injection O' as ->. rewrite Ow in Ow'. injection Ow' as <-. rewrite Z in Z'. injection Z' as <- <-.
      destruct (G p e size n Ow Z) as [t2 [Y1 Y2]]. unfold files_set in Y1. rewrite str_eqb_refl in Y1. injection Y1 as <-. exists text. auto.
    + exists tx. auto.
  - intros path Np. unfold files_set. destruct (str_eqb path (test_path (dev s) e)) eqn:Q; auto. apply str_eqb_eq in Q. exfalso. exact (Np p e eq_refl Q).
Qed.

Lemma send_all : forall y dev M, elem_wf (sy_root y) = true -> own_apart y -> binary_system y dev -> List.length M = footprint (sy_root y) -> forall ss f,
  exists f', ofold (test_send_file y dev M) ss f = Ok f' /\ (forall x, In x ss \/ kept_file y dev M f x -> kept_file y dev M f' x)
    /\ (forall path, (forall s p e, In s ss -> owner_of y s = Some (p, e) -> path <> test_path (dev s) e) -> f' path = f path).
Proof.
  intros y dev M W A B L ss. induction ss as [|s ss IH]; intros f.
  - exists f. split; auto. split; auto. intros x [[]|H]; auto.
  - cbn [ofold]. destruct (send_one y dev M s f W A B L) as [f1 [E1 [K1 [K2 K3]]]]. rewrite E1. cbn [obind]. destruct (IH f1) as [f2 [E2 [G G']]]. exists f2. split; auto. split.
    + intros x [[->|H]|H]; apply G; auto.
    + intros path H. rewrite G', K3; auto.
      * intros p e. apply (H s p e). left. auto.
      * intros s' p e I. apply H. right. auto.
Qed.


(** The objects then answer what [M] holds. *)
Lemma objects_answer : forall y dev M f alive s p e, elem_wf (sy_root y) = true -> own_apart y -> binary_system y dev -> List.length M = footprint (sy_root y) ->
  test_alive alive = true -> kept_file y dev M f s -> sy_own y p = Some s -> elem_at (sy_root y) p = Some e ->
  answers (test_objects y dev alive f s) (footprint e) (Some (slice M (offset (sy_root y) p) (footprint e))).
Proof.
  intros y dev M f alive s p e W A B L Al K O E. pose proof (owner_of_own y s p e A O E) as Ow.
  destruct (binary_shape y dev s p e W B O E) as [Kd [size [n [Z [Sz Fp]]]]]. unfold test_objects. rewrite Ow, Z, Kd.
  destruct (K p e size n Ow Z) as [text [T1 T2]]. rewrite T1. cbn [answers test_object ob_alive ob_receive]. split; auto.
  intros m Lm. apply (acts_map _ _ (fun _ => true) (test_read TBinary size n text) m 0 tt). apply T2. lia.
Qed.
