(** What the objects of a subsystem can touch (C76), and the files of the TEST subsystem (C77). *)
From Coq Require Import List Arith ZArith Bool Ascii String Lia.
From Verif Require Import Base BaseProofs TextModel TextSpec TextProofs ParamTypeModel BlackboardModel CriterionModel TreeModel TreeSpec TreeProofs MemSpec MemProofs SyncModel
  DomainModel MgrModel MgrSpec Demo LoadModel LoadSpec LoadProofs LoadProps ObjModel ObjSpec ObjProofs.
Import ListNotations.
Local Open Scope nat_scope.

(** ** C76 *)

(** An object that stays in the memory of its element does there what its code says and touches nothing else: the bytes before and
    after the element are neither read nor changed. *)
Theorem C76_confined : forall A (p : prog A) m a m', acts m 0 p a m' ->
  forall pre post, run p (pre ++ m ++ post) (List.length pre) = Ok (a, pre ++ m' ++ post) /\ List.length m' = List.length m.
Proof. intros A p m a m' H pre post. pose proof (run_acts A p m 0 a m' H pre post) as K. rewrite Nat.add_0_r in K. exact K. Qed.
Print Assumptions C76_confined.

(** Whatever its code, an object that ends neither reads nor changes what is before its element; all it can do is act on the memory from
    its element to the end. *)
Theorem C76_nothing_before : forall A (p : prog A) pre rest a bb', run p (pre ++ rest) (List.length pre) = Ok (a, bb') <->
  exists rest', acts rest 0 p a rest' /\ bb' = pre ++ rest'.
Proof.
  intros A p pre rest a bb'. split.
  - intros H. apply (acts_run A p pre rest 0 a bb'). rewrite Nat.add_0_r. exact H.
  - intros [r' [H ->]]. destruct (C76_confined A p rest a r' H pre []) as [E _]. rewrite !app_nil_r in E. exact E.
Qed.
Print Assumptions C76_nothing_before.

(** Sending: an object whose code only reads leaves the whole memory as it was, whether it succeeds or not; the result is the one of
    the code when the subsystem is alive, a failure otherwise. *)
Theorem C76_send : forall e ob off bb r bb', reads_only (ob_send ob) -> obj_sync e off ob false bb = Ok (r, bb') ->
  bb' = bb /\ (r = true -> ob_alive ob = true) /\ (ob_alive ob = true -> run (ob_send ob) bb off = Ok (r, bb)).
Proof.
  intros e ob off bb r bb' R H. unfold obj_sync in H. destruct (ob_alive ob).
  - destruct (run (ob_send ob) bb off) as [[b b1]| | |] eqn:E; cbn [obind] in H; try discriminate. pose proof (reads_only_run _ _ R _ _ _ _ E) as ->.
    cbn [fst snd] in H. destruct b; injection H as <- <-; auto.
  - injection H as <- <-. split; auto. split; discriminate.
Qed.
Print Assumptions C76_send.

(** Receiving: the element holds what the object wrote, nothing else changed. *)
Theorem C76_receive : forall e ob pre m post m', ob_alive ob = true -> acts m 0 (ob_receive ob) true m' ->
  obj_sync e (List.length pre) ob true (pre ++ m ++ post) = Ok (true, pre ++ m' ++ post).
Proof. exact sync_back_ok. Qed.
Print Assumptions C76_receive.

(** When the subsystem is not alive or the object fails, in spite of what it wrote, every parameter of the element holds its default value and
    nothing else changed; the failure is told. *)
Theorem C76_failure : forall e ob pre m post m1, elem_wf e = true -> List.length m = footprint e ->
  (ob_alive ob = false /\ m1 = m \/ ob_alive ob = true /\ acts m 0 (ob_receive ob) false m1) ->
  exists m', obj_sync e (List.length pre) ob true (pre ++ m ++ post) = Ok (false, pre ++ m' ++ post) /\ List.length m' = footprint e
    /\ (forall p c, elem_at e p = Some c -> is_param (e_kind c) = true -> holds_default (e_kind c) (offset_in e p (List.length pre)) (pre ++ m' ++ post)).
Proof. intros e ob pre m post m1 W L H. destruct (sync_failed e ob pre m post m1 W L H) as [m' [E [L' [_ D]]]]. exists m'. auto. Qed.
Print Assumptions C76_failure.

(** An object that implements neither direction: receiving succeeds and changes nothing, sending fails and changes nothing. *)
Theorem C76_unsupported : forall e off bb, obj_sync e off (plain_object true) true bb = Ok (true, bb) /\ obj_sync e off (plain_object true) false bb = Ok (false, bb).
Proof. intros e off bb. split; reflexivity. Qed.
Print Assumptions C76_unsupported.

(** Starting with the objects themselves is starting with what they answer: the theorems on the start (C48) hold of any objects that
    give all the bytes of their element, or fail without writing. *)
Theorem C76_start : forall y objs answer allowed cs s, system_ok y -> loadable_domains y cs s ->
  (forall x o e, sy_own y o = Some x -> elem_at (sy_root y) o = Some e -> answers (objs x) (footprint e) (answer x)) ->
  answers_ok y answer /\ start_up_objects y objs allowed cs s = start_up y answer allowed cs s.
Proof.
  intros y objs answer al cs s Sy Hl A. split.
  - intros o e x bytes O E Ea. specialize (A x o e O E). rewrite Ea in A. cbn [answers] in A. destruct A as [_ A].
    specialize (A (repeat zero (footprint e)) (repeat_length _ _)). destruct (run_acts _ _ _ _ _ _ A [] []) as [_ L]. rewrite L, repeat_length. auto.
  - unfold start_up_objects, start_up, hw_back_sync. rewrite (back_objects y objs answer (proj1 (proj1 Sy)) A); auto. destruct Hl as [_ [_ [_ L]]]. exact L.
Qed.
Print Assumptions C76_start.

(** An object for two bytes: it reads the first and writes the one that follows in the alphabet in the second. *)
Definition bump : prog bool := PRead 1 (fun bs => PWrite (map (fun c => byte_of (bval c + 1)) bs) (PEnd true)).

Example C76_confined_nonvacuous : acts (lit "ax") 0 bump true (lit "ab") /\ run bump (lit "12ax34") 2 = Ok (true, lit "12ab34").
Proof.
  split; [|reflexivity].
  apply (acts_read [] (lit "a") (lit "x") 0 (fun bs => PWrite (map (fun c => byte_of (bval c + 1)) bs) (PEnd true))); [reflexivity|].
  apply (acts_write (lit "a") (lit "x") (lit "b") []); [reflexivity|reflexivity|]. apply acts_end.
Qed.

(** Two integers between 5 and 1000, of two bytes, one after the other. *)
Definition two_words : elem := Elem (lit "w") KdBlock [Elem (lit "a") demo_u16 []; Elem (lit "b") demo_u16 []].
Definition half_read (r : bool) : prog bool := PWrite (lit "zz") (PEnd r).

Example C76_sync_nonvacuous :
  obj_sync two_words 1 (Object true bump (half_read true)) true (lit "_abcd_") = Ok (true, lit "_zzcd_")
  /\ obj_sync two_words 1 (Object true bump (half_read false)) true (lit "_abcd_") = Ok (false, lit "_" ++ [byte_of 5; zero; byte_of 5; zero] ++ lit "_")
  /\ obj_sync two_words 1 (Object false bump (half_read true)) true (lit "_abcd_") = Ok (false, lit "_" ++ [byte_of 5; zero; byte_of 5; zero] ++ lit "_")
  /\ obj_sync two_words 1 (Object true (PRead 4 (fun bs => PEnd (str_eqb bs (lit "abcd")))) (half_read true)) false (lit "_abcd_") = Ok (true, lit "_abcd_")
  /\ reads_only (PRead 4 (fun bs => PEnd (str_eqb bs (lit "abcd")))).
Proof. do 4 (split; [vm_compute; reflexivity|]). constructor. intros bs. constructor. Qed.

(** Nothing stops an object from reading past its element: it is given the bytes of the neighbour. *)
Theorem C76_reads_neighbour_refuted : exists (p : prog str) e c, elem_at two_words [0] = Some e /\ elem_at two_words [1] = Some c /\ e_kind e = e_kind c
  /\ run p (lit "abcd") (offset two_words [0]) = Ok (lit "cd", lit "abcd") /\ offset two_words [0] + footprint e = offset two_words [1].
Proof.
  exists (PRead 2 (fun _ => PRead 2 (fun bs => PEnd bs))), (Elem (lit "a") demo_u16 []), (Elem (lit "b") demo_u16 []).
  do 4 (split; [vm_compute; reflexivity|]). vm_compute. reflexivity.
Qed.
Print Assumptions C76_reads_neighbour_refuted.

(** Nor from writing past it: the synchronisation succeeds and another parameter has changed. *)
Theorem C76_writes_neighbour_refuted : exists ob e bb', elem_at two_words [0] = Some e
  /\ obj_sync e (offset two_words [0]) ob true [byte_of 5; zero; byte_of 6; zero] = Ok (true, bb')
  /\ access_get two_words (Fmt false false) (lit "/w/b") 0 [byte_of 5; zero; byte_of 6; zero] = Ok (lit "6")
  /\ access_get two_words (Fmt false false) (lit "/w/b") 0 bb' = Ok (lit "9").
Proof.
  exists (Object true (PEnd true) (PWrite [byte_of 7; zero; byte_of 9; zero] (PEnd true))), (Elem (lit "a") demo_u16 []), [byte_of 7; zero; byte_of 9; zero].
  do 3 (split; [vm_compute; reflexivity|]). vm_compute. reflexivity.
Qed.
Print Assumptions C76_writes_neighbour_refuted.

(** A subsystem that does not support reading back leaves in the memory what is there, zero at the start: the parameter then holds a value outside
    of its range, whereas a subsystem that fails gives it its default value. *)
Theorem C76_unsupported_out_of_range_refuted : exists e bb1 bb2,
  e_kind e = KdParam (PInt false 2 5 1000)
  /\ obj_sync e 0 (plain_object true) true (initial_blackboard e) = Ok (true, bb1) /\ access_get e (Fmt false false) (lit "/a") 0 bb1 = Ok (lit "0")
  /\ obj_sync e 0 (plain_object false) true (initial_blackboard e) = Ok (false, bb2) /\ access_get e (Fmt false false) (lit "/a") 0 bb2 = Ok (lit "5").
Proof.
  exists (Elem (lit "a") demo_u16 []), [zero; zero], [byte_of 5; zero]. do 4 (split; [vm_compute; reflexivity|]). vm_compute. reflexivity.
Qed.
Print Assumptions C76_unsupported_out_of_range_refuted.

(** ** C77 *)

(** The TEST subsystem is alive when the first word of its file is exactly "true". *)
Theorem C77_alive : forall f, test_alive f = true <-> exists t, f = Some t /\ in_words [lit "true"] t.
Proof.
  intros f. split.
  - destruct f as [t|]; cbn [test_alive]; [|discriminate]. intros H. apply str_eqb_eq in H. exists t. split; auto. unfold next_word in H.
    destruct (skip_ws_inv t) as [ws [E [F _]]]. rewrite E.
    assert (forall s w, fst (word s) = w -> exists r, s = w ++ r /\ Forall (fun c => ~ blank c) w /\ (r = [] \/ exists c r', r = c :: r' /\ blank c)) as WD.
    { induction s as [|c s IH]; intros w Hw; cbn [word] in Hw.
      - cbn [fst] in Hw. subst w. exists []. split; [reflexivity|]. split; [constructor|left; reflexivity].
      - destruct (is_space c) eqn:Sp; cbn [fst] in Hw.
        + subst w. exists (c :: s). cbn [app]. split; auto. split; auto. right. exists c, s. split; auto. apply space_blank. auto.
        + subst w. destruct (IH _ eq_refl) as [r [E1 [E2 E3]]]. exists r. cbn [app]. split; [congruence|]. split; auto. constructor; auto. intros B. apply space_blank in B. congruence. }
    destruct (WD _ _ H) as [r [E1 [E2 E3]]]. rewrite E1. apply iw_cons; [|discriminate|exact E2|exact E3|constructor].
    eapply Forall_impl; [|exact F]. intros c Hc. apply space_blank. exact Hc.
  - intros [t [-> H]]. inversion H as [|g w ws r G N F R W]; subst. change (str_eqb (fst (next_word (g ++ lit "true" ++ r))) (lit "true") = true). rewrite (next_word_spec g (lit "true") r G N F R). reflexivity.
Qed.
Print Assumptions C77_alive.

(** Sending, Binary: the file holds one line for each value, 0x and its hexadecimal digits; the memory is only read. *)
Theorem C77_written : forall size blocks, size <= 4 -> Forall (fun b => List.length b = size) blocks -> exists ts, Forall2 binary_word blocks ts
  /\ forall pre post, run (test_write TBinary size (List.length blocks)) (pre ++ List.concat blocks ++ post) (List.length pre)
       = Ok (List.concat (map (fun t => t ++ newline) ts), pre ++ List.concat blocks ++ post).
Proof.
  intros size blocks L F. destruct (binary_written size blocks L F) as [ts [W1 W2]]. exists ts. split; auto. intros pre post.
  exact (proj1 (C76_confined _ _ _ _ _ (test_write_acts TBinary size blocks ts F W2 []) pre post)).
Qed.
Print Assumptions C77_written.

(** Receiving, Binary: each word of the file, a decimal or hexadecimal integer of 32 bits, gives the value in its place; what follows
    the last word needed is ignored. *)
Theorem C77_read : forall size ts vs text, size <= 4 -> Forall2 (fun t v => int_text t v /\ (0 <= v < 2 ^ 32)%Z /\ ~ In "-"%char t) ts vs -> in_words ts text ->
  forall pre old post, List.length old = size * List.length ts ->
  run (test_read TBinary size (List.length ts) text) (pre ++ old ++ post) (List.length pre) = Ok (tt, pre ++ List.concat (map (le_encode size) vs) ++ post).
Proof.
  intros size ts vs text L H W pre old post Lo.
  assert (Forall2 (fun t b => test_bytes TBinary size t = PEnd b /\ List.length b = size) ts (map (le_encode size) vs)) as R.
  { clear W Lo. induction H as [|t v ts vs [H1 [H2 H3]] H IH]; [constructor|]. cbn [map]. constructor; auto. split; [apply test_bytes_binary; auto|apply le_encode_length]. }
  exact (proj1 (C76_confined _ _ _ _ _ (test_read_acts TBinary size ts _ R text [] old W Lo) pre post)).
Qed.
Print Assumptions C77_read.

(** What was sent is what is received, whatever the memory holds by then and wherever it is. *)
Theorem C77_round_trip : forall size n m, size <= 4 -> List.length m = size * n ->
  exists text, (forall pre post, run (test_write TBinary size n) (pre ++ m ++ post) (List.length pre) = Ok (text, pre ++ m ++ post))
    /\ forall pre old post, List.length old = size * n -> run (test_read TBinary size n text) (pre ++ old ++ post) (List.length pre) = Ok (tt, pre ++ m ++ post).
Proof.
  intros size n m L Lm. destruct (binary_round_trip size n m L Lm) as [text [T1 T2]]. exists text. split.
  - intros pre post. exact (proj1 (C76_confined _ _ _ _ _ T1 pre post)).
  - intros pre old post Lo. exact (proj1 (C76_confined _ _ _ _ _ (T2 old Lo) pre post)).
Qed.
Print Assumptions C77_round_trip.

(** The String objects: words without blanks come back, followed by zeros. *)
Theorem C77_string_round_trip : forall size blocks ts, Forall (fun b => List.length b = size) blocks -> Forall2 string_word blocks ts ->
  Forall (fun t => t <> [] /\ Forall (fun c => ~ blank c) t) ts ->
  exists text, (forall pre post, run (test_write TString size (List.length blocks)) (pre ++ List.concat blocks ++ post) (List.length pre) = Ok (text, pre ++ List.concat blocks ++ post))
    /\ exists blocks', Forall2 string_word blocks' ts /\ Forall (fun b => List.length b = size) blocks'
    /\ forall pre old post, List.length old = size * List.length blocks ->
         run (test_read TString size (List.length blocks) text) (pre ++ old ++ post) (List.length pre) = Ok (tt, pre ++ List.concat blocks' ++ post).
Proof.
  intros size blocks ts F W N. exists (List.concat (map (fun t => t ++ newline) ts)). split.
  - intros pre post. refine (proj1 (C76_confined _ _ _ _ _ (test_write_acts TString size blocks ts F _ []) pre post)).
    clear -W. induction W as [|b t bl ts H W IH]; constructor; auto. apply test_text_string. auto.
  - assert (Forall (fun t => List.length t < size /\ ~ In zero t) ts) as S1.
    { clear N. induction W as [|b t bl ts [z [E Z]] W IH]; [constructor|]. inversion F as [|? ? F1 F2]; subst. constructor; auto. rewrite app_length in *. cbn [List.length] in *. split; [lia|auto]. }
    pose proof (Forall2_len _ _ _ _ _ W) as Ln. exists (map (fun t => t ++ repeat zero (size - List.length t)) ts).
    assert (Forall2 (fun t b => test_bytes TString size t = PEnd b /\ List.length b = size) ts (map (fun t => t ++ repeat zero (size - List.length t)) ts)) as R.
    { clear -S1. induction S1 as [|t ts [H _] S1 IH]; [constructor|]. cbn [map]. constructor; auto. split; [apply test_bytes_string; auto|]. rewrite app_length, repeat_length. lia. }
    split; [|split].
    + clear -S1. induction S1 as [|t ts [H Z] S1 IH]; [constructor|]. cbn [map]. constructor; auto. exists (repeat zero (size - S (List.length t))). split; auto. f_equal.
      replace (size - List.length t) with (S (size - S (List.length t))) by lia. reflexivity.
    + clear -R. induction R as [|t b ts bl [_ H] R IH]; constructor; auto.
    + intros pre old post Lo. rewrite Ln in *. exact (proj1 (C76_confined _ _ _ _ _ (test_read_acts TString size ts _ R _ [] old (words_lines ts N [] (Forall_nil _)) Lo) pre post)).
Qed.
Print Assumptions C77_string_round_trip.

(** Without file the memory is left as it is, and that is a success; when the file cannot be opened for writing, sending fails. *)
Theorem C77_no_file : forall k size n alive e off bb, test_alive alive = true ->
  (forall opens, obj_sync e off (test_object k size n alive opens None) true bb = Ok (true, bb))
  /\ (forall f, obj_sync e off (test_object k size n alive false f) false bb = Ok (false, bb)).
Proof. intros k size n alive e off bb A. split; intros x; unfold obj_sync, test_object; cbn [ob_alive ob_receive ob_send]; rewrite A; reflexivity. Qed.
Print Assumptions C77_no_file.

(** Restart: every parameter has a TEST Binary object and a file of its own, all of them have sent, the framework is started anew with the
    files left.  Every parameter that no applicable configuration sets holds what it held; the files of others are untouched. *)
Theorem C77_restart : forall y dev M ss f allowed cs s alive, system_ok y -> own_apart y -> binary_system y dev -> List.length M = footprint (sy_root y) ->
  (forall x o e, sy_own y o = Some x -> elem_at (sy_root y) o = Some e -> In x ss) -> loadable_domains y cs s -> test_alive alive = true ->
  exists f' m, ofold (test_send_file y dev M) ss f = Ok f'
    /\ start_up_objects y (test_objects y dev alive f') allowed cs s = Ok m /\ reachable y m
    /\ (forall q e x, param_at (sy_root y) q e -> sy_own y q = Some x -> ~ controlled cs s q -> same_setting (sy_root y) q 0 (mg_main m) 0 M)
    /\ (forall path, (forall o e x, sy_own y o = Some x -> elem_at (sy_root y) o = Some e -> path <> test_path (dev x) e) -> f' path = f path).
Proof.
  intros y dev M ss f al cs s alive Sy Oa B L All Hl Av. pose proof (proj1 (proj1 Sy)) as W.
  destruct (send_all y dev M W Oa B L ss f) as [f' [E [K K']]].
  set (answer := fun x => match owner_of y x with Some (p, e) => Some (slice M (offset (sy_root y) p) (footprint e)) | None => None end).
  assert (forall x o e, sy_own y o = Some x -> elem_at (sy_root y) o = Some e -> answers (test_objects y dev alive f' x) (footprint e) (answer x)) as An.
  { intros x o e O Ee. unfold answer. rewrite (owner_of_own y x o e Oa O Ee). apply (objects_answer y dev M f' alive x o e); auto. apply K. left. apply (All x o e); auto. }
  destruct (C76_start y _ answer al cs s Sy Hl An) as [Ao St]. destruct (C48_start_total y answer al cs s Sy Ao Hl) as [m [Sm Rm]].
  exists f', m. split; auto. split; [congruence|]. split; auto. split.
  - intros q e x Hq O N.
    assert (above q q) as Aq by (exists []; rewrite app_nil_r; reflexivity).
    assert (forall t, e_kind e <> KdBit t) as Nb by (intros t Kt; destruct B as [B _]; destruct (B q x e O (proj1 Hq)) as [_ [t' [T|[len T]]]]; congruence).
    assert (answer x = Some (slice M (offset (sy_root y) q) (footprint e))) as Ax by (unfold answer; rewrite (owner_of_own y x q e Oa O (proj1 Hq)); reflexivity).
    pose proof (C48_uncontrolled_read_back_partial y answer al cs s m q e q e x _ Sy Oa Ao Hl Sm Hq N O Aq (proj1 Hq) Nb Ax) as H.
    intros i Hi. rewrite (H i Hi). rewrite mbit_slice. destruct Hi as [e' [E' [I1 I2]]]. rewrite (proj1 Hq) in E'. injection E' as <-.
    assert ((i - 8 * offset (sy_root y) q <? 8 * footprint e) = true) as ->.
    { unfold field_bit in I2. destruct (e_kind e) eqn:Ke; auto. exfalso. exact (Nb _ eq_refl). }
    f_equal. lia.
  - intros path Np. apply K'. intros x p e _ Ow. destruct (owner_of_inv _ _ _ _ Ow) as [O Ee]. apply (Np p e x); auto.
Qed.
Print Assumptions C77_restart.

(** ** Examples *)

(** Three parameters with a Binary object each. *)
Definition td_sys : system :=
  Sys (Elem (lit "Sys") KdSystem [Elem (lit "Sub") KdSubsystem [Elem (lit "a") demo_u16 []; Elem (lit "arr") (KdArray PBool 3) []; Elem (lit "b") demo_u16 []]])
      (fun p => match p with [0; 0] => Some 1 | [0; 1] => Some 2 | [0; 2] => Some 3 | _ => None end) (fun _ _ => true).
Definition td_dev (s : nat) : test_device := TestDevice TBinary (lit "/tmp").
Definition td_mem : list byte := [byte_of 44; byte_of 1; byte_of 1; byte_of 0; byte_of 1; byte_of 7; byte_of 0].
Definition td_files : files := fun path => if str_eqb path (lit "/tmp/other") then Some (lit "kept") else None.

Lemma td_own : forall p s, sy_own td_sys p = Some s -> (p = [0; 0] /\ s = 1) \/ (p = [0; 1] /\ s = 2) \/ (p = [0; 2] /\ s = 3).
Proof.
  intros p s H. cbn [sy_own td_sys] in H. destruct p as [|[|i] [|[|[|[|j]]] [|k p]]]; try discriminate H; injection H as <-; auto.
Qed.

Lemma td_ok : system_ok td_sys /\ own_apart td_sys /\ binary_system td_sys td_dev /\ loadable_domains td_sys demo_crits (Domains [] [] 0).
Proof.
  split.
  { split; [split; [vm_compute; reflexivity|apply check_fields_ok; vm_compute; reflexivity]|]. intros p q s t Hp Hq [r H].
    destruct (td_own _ _ Hp) as [[-> ->]|[[-> ->]|[-> ->]]], (td_own _ _ Hq) as [[-> ->]|[[-> ->]|[-> ->]]]; auto; discriminate H. }
  split.
  { intros p q s Hp Hq. destruct (td_own _ _ Hp) as [[-> ->]|[[-> ->]|[-> ->]]], (td_own _ _ Hq) as [[-> E]|[[-> E]|[-> E]]]; auto; discriminate E. }
  split; [split|].
  - intros o s e O E. split; auto. destruct (td_own _ _ O) as [[-> ->]|[[-> ->]|[-> ->]]]; cbn in E; injection E as <-; cbn [e_kind]; [exists (PInt false 2 5 1000); left; auto|exists PBool; right; exists 3; auto|exists (PInt false 2 5 1000); left; auto].
  - intros o1 s1 e1 o2 s2 e2 O1 E1 O2 E2 H.
    destruct (td_own _ _ O1) as [[-> ->]|[[-> ->]|[-> ->]]], (td_own _ _ O2) as [[-> ->]|[[-> ->]|[-> ->]]]; auto; cbn in E1, E2; injection E1 as <-; injection E2 as <-; discriminate H.
  - split; [exact demo_crits_ok|]. split; [apply no_domains_ok|]. split; [intros d c r []|reflexivity].
Qed.

Definition td_sent : files := match ofold (test_send_file td_sys td_dev td_mem) [3; 1; 2] td_files with Ok f => f | _ => td_files end.

(** The files once sent, and what is read from them at the next start. *)
Example C77_nonvacuous :
  system_ok td_sys /\ own_apart td_sys /\ binary_system td_sys td_dev /\ loadable_domains td_sys demo_crits (Domains [] [] 0)
  /\ test_alive (Some (lit " true")) = true
  /\ td_sent (lit "/tmp/a") = Some (lit "0x12c" ++ newline)
  /\ td_sent (lit "/tmp/arr") = Some (lit "0x1" ++ newline ++ lit "0x0" ++ newline ++ lit "0x1" ++ newline)
  /\ td_sent (lit "/tmp/b") = Some (lit "0x7" ++ newline) /\ td_sent (lit "/tmp/other") = Some (lit "kept")
  /\ omap mg_main (start_up_objects td_sys (test_objects td_sys td_dev (Some (lit " true")) td_sent) true demo_crits (Domains [] [] 0)) = Ok td_mem
  /\ omap mg_main (start_up_objects td_sys (test_objects td_sys td_dev (Some (lit "false")) td_sent) true demo_crits (Domains [] [] 0))
     = Ok [byte_of 5; zero; zero; zero; zero; byte_of 5; zero].
Proof.
  destruct td_ok as [K1 [K2 [K3 K4]]]. split; [exact K1|]. split; [exact K2|]. split; [exact K3|]. split; [exact K4|].
  do 6 (split; [vm_compute; reflexivity|]). vm_compute. reflexivity.
Qed.

(** Words: hexadecimal or decimal, separated by any blanks; two are needed. *)
Example C77_read_nonvacuous : exists ts, Forall2 (fun t v => int_text t v /\ (0 <= v < 2 ^ 32)%Z /\ ~ In "-"%char t) ts [10%Z; 300%Z]
  /\ in_words ts (lit "  0xA 300  rest")
  /\ run (test_read TBinary 2 2 (lit "  0xA 300  rest")) (lit "_wxyz_") 1 = Ok (tt, lit "_" ++ [byte_of 10; zero; byte_of 44; byte_of 1] ++ lit "_").
Proof.
  exists [lit "0xA"; lit "300"]. split; [|split; [|vm_compute; reflexivity]].
  - constructor; [|constructor; [|constructor]].
    + split; [|split; [lia|cbn; intros [H|[H|[H|[]]]]; discriminate H]]. apply (it_hex (lit "A") [10%Z]); [discriminate|]. constructor; [|constructor]. right; right. split; [lia|reflexivity].
    + split; [|split; [lia|cbn; intros [H|[H|[H|[]]]]; discriminate H]]. apply (it_dec (lit "300") [3%Z; 0%Z; 0%Z]); [discriminate|]. repeat constructor; lia.
  - assert (forall c, is_space c = false -> ~ blank c) as NB by (intros c Hc B; apply space_blank in B; congruence).
    assert (forall c, is_space c = true -> blank c) as YB by (intros c Hc; apply space_blank; auto).
    apply (iw_cons (lit "  ") (lit "0xA") [lit "300"] (lit " 300  rest")); [repeat constructor; apply YB; reflexivity|discriminate|repeat constructor; apply NB; reflexivity| |].
    + right. eexists _, _. split; [reflexivity|apply YB; reflexivity].
    + apply (iw_cons (lit " ") (lit "300") [] (lit "  rest")); [repeat constructor; apply YB; reflexivity|discriminate|repeat constructor; apply NB; reflexivity| |constructor].
      right. eexists _, _. split; [reflexivity|apply YB; reflexivity].
Qed.

Example C77_string_nonvacuous : string_word (lit "ab" ++ [zero; "q"%char]) (lit "ab")
  /\ run (test_write TString 4 1) (lit "ab" ++ [zero; "q"%char]) 0 = Ok (lit "ab" ++ newline, lit "ab" ++ [zero; "q"%char])
  /\ run (test_read TString 4 1 (lit "ab" ++ newline)) (lit "wxyz") 0 = Ok (tt, lit "ab" ++ [zero; zero]).
Proof.
  split; [exists ["q"%char]; split; [reflexivity|intros [H|[H|[]]]; discriminate H]|]. split; vm_compute; reflexivity.
Qed.

(** ** What does not hold *)

(** A text with a blank comes back cut at the blank. *)
Theorem C77_blank_refuted : exists m text, run (test_write TString 4 1) m 0 = Ok (text, m)
  /\ m = lit "a b" ++ [zero] /\ run (test_read TString 4 1 text) m 0 = Ok (tt, lit "a" ++ [zero; zero; zero]).
Proof. exists (lit "a b" ++ [zero]), (lit "a b" ++ newline). split; [vm_compute; reflexivity|]. split; [reflexivity|vm_compute; reflexivity]. Qed.
Print Assumptions C77_blank_refuted.

(** A file with fewer words than the array has values, or with something that is not a number, ends the process: the exception is not
    caught. *)
Theorem C77_short_file_refuted : exists t1 t2 m, in_words [lit "0x1"] t1 /\ run (test_read TBinary 1 2 t1) m 0 = Abort
  /\ t2 = lit "on" /\ run (test_read TBinary 1 1 t2) m 0 = Abort.
Proof.
  exists (lit "0x1" ++ newline), (lit "on"), (lit "xy"). split; [|split; [vm_compute; reflexivity|split; [reflexivity|vm_compute; reflexivity]]].
  apply (iw_cons [] (lit "0x1") [] newline); [constructor|discriminate| | |constructor].
  - repeat constructor; intros B; apply space_blank in B; discriminate B.
  - right. exists "010"%char, []. split; [reflexivity|]. apply space_blank. reflexivity.
Qed.
Print Assumptions C77_short_file_refuted.

(** A value too large for the parameter is cut without a word: 511 read for a parameter of one byte is 255. *)
Theorem C77_too_large_refuted : exists bb', run (test_read TBinary 1 1 (lit "511")) [zero] 0 = Ok (tt, bb') /\ le_decode bb' = 255%Z.
Proof. exists [byte_of 255]. split; vm_compute; reflexivity. Qed.
Print Assumptions C77_too_large_refuted.

(** And one in the width of the parameter but outside of its range is accepted: a parameter between 5 and 1000 then holds 2000. *)
Theorem C77_out_of_range_refuted : exists e bb', e_kind e = KdParam (PInt false 2 5 1000)
  /\ obj_sync e 0 (test_object TBinary 2 1 (Some (lit "true")) true (Some (lit "2000"))) true (initial_blackboard e) = Ok (true, bb')
  /\ access_get e (Fmt false false) (lit "/a") 0 bb' = Ok (lit "2000").
Proof. exists (Elem (lit "a") demo_u16 []), (le_encode 2 2000). split; [reflexivity|]. split; vm_compute; reflexivity. Qed.
Print Assumptions C77_out_of_range_refuted.

(** Two parameters of the same name, in two blocks, with the same directory share a file: after a restart the first has the value of the
    second. *)
Definition tw_sys : system :=
  Sys (Elem (lit "Sys") KdSystem [Elem (lit "Sub") KdSubsystem [Elem (lit "l") KdBlock [Elem (lit "a") demo_u16 []]; Elem (lit "r") KdBlock [Elem (lit "a") demo_u16 []]]])
      (fun p => match p with [0; 0; 0] => Some 1 | [0; 1; 0] => Some 2 | _ => None end) (fun _ _ => true).
Theorem C77_same_name_refuted : exists f, ofold (test_send_file tw_sys td_dev [byte_of 6; zero; byte_of 9; zero]) [1; 2] td_files = Ok f
  /\ omap mg_main (start_up_objects tw_sys (test_objects tw_sys td_dev (Some (lit "true")) f) true demo_crits (Domains [] [] 0)) = Ok [byte_of 9; zero; byte_of 9; zero].
Proof.
  exists (files_set (files_set td_files (lit "/tmp/a") (lit "0x6" ++ newline)) (lit "/tmp/a") (lit "0x9" ++ newline)).
  split; [|vm_compute; reflexivity]. reflexivity.
Qed.
Print Assumptions C77_same_name_refuted.

(** The String objects are made for string parameters; but the constructor takes the type of the element for a numeric type, which the type
    of a string is not. *)
Definition ts_sys : system :=
  Sys (Elem (lit "Sys") KdSystem [Elem (lit "Sub") KdSubsystem [Elem (lit "s") (KdString 4) []]]) (fun p => match p with [0; 0] => Some 1 | _ => None end) (fun _ _ => true).
Theorem C77_string_parameter_refuted : exists e n, param_at (sy_root ts_sys) [0; 0] e /\ e_kind e = KdString n /\ elem_wf (sy_root ts_sys) = true
  /\ forall dev f, test_send_file ts_sys dev (lit "abc" ++ [zero; zero]) 1 f = UB.
Proof. exists (Elem (lit "s") (KdString 4) []), 4. split; [split; reflexivity|]. split; [reflexivity|]. split; [reflexivity|]. intros dev f. reflexivity. Qed.
Print Assumptions C77_string_parameter_refuted.
