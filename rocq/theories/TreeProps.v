(** C02, C03, C37, C44, C56: the structure, its layout, its paths, access by path and default values. *)
From Coq Require Import List Arith ZArith QArith Bool Ascii String Lia.
From Verif Require Import Base BaseProofs TextModel RealModel RealSpec ParamTypeModel ParamTypeSpec BlackboardModel BitModel ArrayModel
  ArraySpec TreeModel TreeSpec TreeProofs IntProofs FloatProofs.
Import ListNotations.
Local Open Scope nat_scope.

(** A structure used in the examples: a system with a subsystem holding a block of three parameters, a bit block and a
    string. *)
Definition ex_u16 := KdParam (PInt false 2 5 1000).
Definition ex_bits : elem :=
  Elem (lit "bits") (KdBitBlock 1)
    [Elem (lit "low") (KdBit (BitType 0 3 7 1)) []; Elem (lit "high") (KdBit (BitType 4 2 3 1)) []].
Definition ex_tree : elem :=
  Elem (lit "Sys") KdSystem
    [Elem (lit "Sub") KdSubsystem
       [Elem (lit "blk") KdBlock
          [Elem (lit "a") ex_u16 []; Elem (lit "arr") (KdArray PBool 3) []; Elem (lit "b") ex_u16 []];
        ex_bits;
        Elem (lit "str") (KdString 4) []]].

(** ** C02 *)

(** The area of an element lies inside the area of each of its ancestors. *)
Theorem C02_inside_ancestor : forall root p r e c, elem_wf root = true -> elem_at root p = Some e ->
  elem_at root (p ++ r) = Some c ->
  offset root p <= offset root (p ++ r) /\ offset root (p ++ r) + footprint c <= offset root p + footprint e.
Proof. exact layout_inside_parent. Qed.
Print Assumptions C02_inside_ancestor.

Example C02_inside_ancestor_nonvacuous :
  elem_wf ex_tree = true /\ option_map footprint (elem_at ex_tree [0; 0]) = Some 7
  /\ offset ex_tree [0; 0; 2] = 5 /\ offset ex_tree [0; 2] = 8.
Proof. repeat split. Qed.

(** The storage of every element (for a bit parameter, the word of its block) lies inside the main blackboard. *)
Theorem C02_inside_blackboard : forall root p e, elem_wf root = true -> elem_at root p = Some e ->
  offset root p + storage_size e <= List.length (initial_blackboard root).
Proof.
  intros root p e Hw Hp. rewrite (proj2 (zero_terminated root Hw)). apply storage_inside; auto.
Qed.
Print Assumptions C02_inside_blackboard.

(** Elements neither of which is above the other, and which are not bits of one block, share no byte. *)
Theorem C02_disjoint : forall root p q e f, elem_wf root = true -> unrelated p q -> ~ same_block root p q ->
  elem_at root p = Some e -> elem_at root q = Some f ->
  apart (offset root p) (storage_size e) (offset root q) (storage_size f).
Proof. exact apart_storage. Qed.
Print Assumptions C02_disjoint.

Example C02_disjoint_nonvacuous :
  unrelated [0; 0; 2] [0; 1; 1] /\ ~ same_block ex_tree [0; 0; 2] [0; 1; 1]
  /\ option_map storage_size (elem_at ex_tree [0; 0; 2]) = Some 2
  /\ option_map storage_size (elem_at ex_tree [0; 1; 1]) = Some 1.
Proof.
  split; [split; intros [r H]; discriminate|]. split; [|split; reflexivity].
  intros [r [i [j [e [f [t [u [H1 [H2 _]]]]]]]]].
  change [0; 0; 2] with ([0; 0] ++ [2]) in H1. change [0; 1; 1] with ([0; 1] ++ [1]) in H2.
  apply app_inj_tail in H1. apply app_inj_tail in H2. destruct H1, H2. congruence.
Qed.

(** The size of a container is the sum of the sizes of its children, and the children follow each other without hole. *)
Theorem C02_container : forall root p e, elem_at root p = Some e ->
  match e_kind e with
  | KdSystem | KdSubsystem | KdBlock | KdComponent =>
      footprint e = list_sum (map footprint (e_children e))
      /\ (forall c, nth_error (e_children e) 0 = Some c -> offset root (p ++ [0]) = offset root p)
      /\ (forall i c d, nth_error (e_children e) i = Some c -> nth_error (e_children e) (S i) = Some d ->
            offset root (p ++ [S i]) = offset root (p ++ [i]) + footprint c)
  | _ => True
  end.
Proof.
  intros root p e Hp.
  assert (forall c, nth_error (e_children e) 0 = Some c -> offset root (p ++ [0]) = offset root p) as H0.
  { intros c Hc. rewrite (offset_app _ _ _ e Hp). cbn [offset_in]. rewrite Hc. simpl. lia. }
  assert (forall i c d, nth_error (e_children e) i = Some c -> nth_error (e_children e) (S i) = Some d ->
            offset root (p ++ [S i]) = offset root (p ++ [i]) + footprint c) as HS.
  { intros i c d Hc Hd. rewrite !(offset_app _ _ _ e Hp). cbn [offset_in]. rewrite Hc, Hd.
    assert (firstn (S i) (e_children e) = firstn i (e_children e) ++ [c]) as ->.
    { clear - Hc. revert Hc. generalize (e_children e). induction i; intros [|x l] Hc; try discriminate.
      - inversion Hc; subst; auto.
      - simpl in Hc. change (x :: firstn (S i) l = (x :: firstn i l) ++ [c]). rewrite (IHi l Hc). auto. }
    rewrite map_app, list_sum_app. simpl. lia. }
  destruct e as [nm k cs]. simpl in *. destruct k; auto.
Qed.
Print Assumptions C02_container.

(** ** C03 *)

(** Whatever the request, accepted or not, a parameter other than the one it designates keeps its value, in every
    format.  [fields_apart]: the bit fields of each bit block were declared disjoint; [strings_terminated]: see C11. *)
Theorem C03_others_unchanged : forall root f path s bb ok bb' p rest q rest2 path2 f2,
  elem_wf root = true -> fields_apart root -> List.length bb = footprint root -> strings_terminated root bb ->
  param_of root path = Some (p, rest) -> param_of root path2 = Some (q, rest2) -> p <> q ->
  access_set root f path s 0 bb = Ok (ok, bb') ->
  access_get root f2 path2 0 bb' = access_get root f2 path2 0 bb.
Proof. exact access_set_others. Qed.
Print Assumptions C03_others_unchanged.

Lemma ex_tree_fields_apart : fields_apart ex_tree.
Proof.
  assert (forall q e t, elem_at ex_tree q = Some e -> e_kind e = KdBit t ->
    (q = [0; 1; 0] /\ t = BitType 0 3 7 1) \/ (q = [0; 1; 1] /\ t = BitType 4 2 3 1)) as B.
  { intros q e t H K.
    destruct q as [|[|i] q]; simpl in H; [inversion H; subst; discriminate| |destruct i; discriminate].
    destruct q as [|[|[|[|i]]] q]; simpl in H; try (inversion H; subst; discriminate); try (destruct i; discriminate).
    - destruct q as [|[|[|[|i]]] q]; simpl in H; try (inversion H; subst; discriminate); try (destruct i; discriminate);
        destruct q as [|[|i] q]; simpl in H; try discriminate; inversion H; subst; discriminate.
    - destruct q as [|[|[|i]] q]; simpl in H; try (inversion H; subst; discriminate); try (destruct i; discriminate);
        destruct q as [|[|i] q]; simpl in H; try discriminate; inversion H; subst; simpl in K; inversion K; subst; auto.
    - destruct q as [|[|i] q]; simpl in H; try discriminate; inversion H; subst; discriminate. }
  intros r i j e f t u Hij H1 H2 K1 K2.
  destruct (B _ _ _ H1 K1) as [[E1 ->]|[E1 ->]]; destruct (B _ _ _ H2 K2) as [[E2 ->]|[E2 ->]]; simpl; try lia;
    exfalso; apply Hij; rewrite <- E2 in E1; apply app_inj_tail in E1; apply E1.
Qed.

Example C03_others_unchanged_nonvacuous :
  let bb := initial_blackboard ex_tree in
  elem_wf ex_tree = true /\ fields_apart ex_tree /\ strings_terminated ex_tree bb
  /\ param_of ex_tree (lit "/Sys/Sub/bits/high") = Some ([0; 1; 1], [])
  /\ param_of ex_tree (lit "/Sys/Sub/blk/arr/2") = Some ([0; 0; 1], [lit "2"])
  /\ exists bb', access_set ex_tree (Fmt false false) (lit "/Sys/Sub/bits/high") (lit "3") 0 bb = Ok (true, bb') /\ bb' <> bb.
Proof.
  split; [reflexivity|]. split; [apply ex_tree_fields_apart|].
  split; [apply zero_terminated; reflexivity|]. split; [reflexivity|]. split; [reflexivity|].
  eexists. split; [vm_compute; reflexivity|discriminate].
Qed.

(** A rejected request leaves the whole blackboard unchanged, except on an array parameter (see
    [C12_rejected_partial_write_refuted]); a request on a path that designates no parameter is rejected; no request
    crashes. *)
Theorem C03_rejected_unchanged : forall root f path s bb, elem_wf root = true -> List.length bb = footprint root ->
  exists ok bb', access_set root f path s 0 bb = Ok (ok, bb') /\ List.length bb' = List.length bb
    /\ (ok = false -> (forall p rest e t len, param_of root path = Some (p, rest) -> elem_at root p = Some e ->
          e_kind e <> KdArray t len) -> bb' = bb)
    /\ (param_of root path = None -> ok = false).
Proof. exact access_set_total. Qed.
Print Assumptions C03_rejected_unchanged.

Example C03_rejected_unchanged_nonvacuous :
  access_set ex_tree (Fmt false false) (lit "/Sys/Sub/blk/a") (lit "4") 0 (initial_blackboard ex_tree)
    = Ok (false, initial_blackboard ex_tree)
  /\ param_of ex_tree (lit "/Sys/Sub/blk") = None.
Proof. split; vm_compute; reflexivity. Qed.

(** From the start, through any sequence of requests: the process goes on, and a parameter that was the target of none
    of them reads as at the beginning. *)
Theorem C03_history : forall root reqs, elem_wf root = true -> fields_apart root ->
  exists bb', run_sets root reqs (initial_blackboard root) = Ok bb' /\ List.length bb' = footprint root
    /\ forall q rest2 path2 f2, param_of root path2 = Some (q, rest2) ->
          (forall f path s rest, In (f, path, s) reqs -> param_of root path <> Some (q, rest)) ->
          access_get root f2 path2 0 bb' = access_get root f2 path2 0 (initial_blackboard root).
Proof.
  intros root reqs Hw Hf. destruct (zero_terminated root Hw) as [T L].
  destruct (run_sets_spec root reqs _ Hw L T) as [bb' [E [L' [_ O]]]]. exists bb'. split; [auto|]. split; [auto|]. exact (O Hf).
Qed.
Print Assumptions C03_history.

Example C03_history_nonvacuous :
  let reqs := [(Fmt false false, lit "/Sys/Sub/blk/a", lit "7"); (Fmt false false, lit "/Sys/Sub/bits/low", lit "9");
               (Fmt false false, lit "/Sys/Sub/bits/low", lit "5")] in
  exists bb', run_sets ex_tree reqs (initial_blackboard ex_tree) = Ok bb'
    /\ access_get ex_tree (Fmt false false) (lit "/Sys/Sub/bits/low") 0 bb' = Ok (lit "5")
    /\ access_get ex_tree (Fmt false false) (lit "/Sys/Sub/bits/high") 0 bb' = Ok (lit "0").
Proof. eexists. split; [vm_compute; reflexivity|]. split; vm_compute; reflexivity. Qed.

(** Nothing checks that the bit fields of a block are disjoint: with overlapping fields an accepted request changes the
    value of another parameter. *)
Theorem C03_overlapping_bits_refuted : exists root path path2 s bb bb' p q,
  elem_wf root = true /\ List.length bb = footprint root /\ strings_terminated root bb
  /\ param_of root path = Some (p, []) /\ param_of root path2 = Some (q, []) /\ p <> q
  /\ access_set root (Fmt false false) path s 0 bb = Ok (true, bb')
  /\ access_get root (Fmt false false) path2 0 bb = Ok (lit "0")
  /\ access_get root (Fmt false false) path2 0 bb' = Ok (lit "1").
Proof.
  set (root := Elem (lit "Sys") KdSystem [Elem (lit "bits") (KdBitBlock 1)
    [Elem (lit "x") (KdBit (BitType 0 3 7 1)) []; Elem (lit "y") (KdBit (BitType 2 3 7 1)) []]]).
  exists root, (lit "/Sys/bits/x"), (lit "/Sys/bits/y"), (lit "4"), (initial_blackboard root). eexists. exists [0; 0], [0; 1]. split; [vm_compute; reflexivity|]. split; [reflexivity|].
  split; [apply zero_terminated; reflexivity|]. split; [reflexivity|]. split; [reflexivity|]. split; [discriminate|].
  split; [vm_compute; reflexivity|]. split; vm_compute; reflexivity.
Qed.
Print Assumptions C03_overlapping_bits_refuted.

(** ** C37 *)

(** When siblings have distinct names and no name holds a slash, the path printed for an element designates it. *)
Theorem C37_printed_path : forall root p, names_ok root -> elem_at root p <> None -> locate root (path_in root p) = Some p.
Proof. exact locate_path. Qed.
Print Assumptions C37_printed_path.

(** ... in parameter accesses too. *)
Theorem C37_printed_parameter_path : forall root p e, names_ok root -> elem_wf root = true -> param_at root p e ->
  param_of root (path_in root p) = Some (p, []).
Proof. exact param_of_path. Qed.
Print Assumptions C37_printed_parameter_path.

Lemma ex_names_ok : names_ok (Elem (lit "S") KdSystem [Elem (lit "x") KdBlock []; Elem [] KdBlock [Elem (lit "x") ex_u16 []]]).
Proof.
  split; [discriminate|]. split.
  - intros p e H. destruct p as [|[|[|i]] p]; simpl in H.
    + inversion H; subst. intros C; vm_compute in C; intuition discriminate.
    + destruct p as [|[|i] p]; simpl in H; try discriminate. inversion H; subst. intros C; vm_compute in C; intuition discriminate.
    + destruct p as [|[|[|i]] p]; simpl in H; try discriminate; [inversion H; subst; intros C; vm_compute in C; intuition discriminate|].
      destruct p as [|[|i] p]; simpl in H; try discriminate. inversion H; subst. intros C; vm_compute in C; intuition discriminate.
    + destruct i; discriminate.
  - intros p e i j c d H Hi Hj E.
    destruct p as [|[|[|k]] p]; simpl in H; [| | |destruct k; discriminate].
    + inversion H; subst e. simpl in Hi, Hj.
      destruct i as [|[|[|i]]]; simpl in Hi; try discriminate; destruct j as [|[|[|j]]]; simpl in Hj; try discriminate; auto;
      inversion Hi; inversion Hj; subst; vm_compute in E; discriminate.
    + destruct p as [|[|k] p]; simpl in H; try discriminate. inversion H; subst e. destruct i; discriminate.
    + destruct p as [|[|[|k]] p]; simpl in H; try discriminate.
      * inversion H; subst e. simpl in Hi, Hj. destruct i as [|[|i]]; simpl in Hi; try discriminate; destruct j as [|[|j]]; try discriminate; auto.
      * destruct p as [|[|k] p]; simpl in H; try discriminate. inversion H; subst e. destruct i; discriminate.
Qed.

Example C37_printed_path_nonvacuous :
  let root := Elem (lit "S") KdSystem [Elem (lit "x") KdBlock []; Elem [] KdBlock [Elem (lit "x") ex_u16 []]] in
  names_ok root /\ path_in root [1; 0] = lit "/S/ParameterBlock/x" /\ locate root (lit "/S/ParameterBlock/x") = Some [1; 0].
Proof. split; [apply ex_names_ok|split; reflexivity]. Qed.

(** Conversely, the element a path designates exists, and the items of the path are the names met on the way to it. *)
Theorem C37_located_exists : forall root path p, locate root path = Some p ->
  exists e, elem_at root p = Some e
    /\ exists items, path_items path = Some (e_name root :: items) /\ find_desc root items = Some p
       /\ (forall i, i < List.length items -> exists c, elem_at root (firstn (S i) p) = Some c
             /\ nth_error items i = Some (path_name c)).
Proof.
  intros root path p H. unfold locate in H. destruct (path_items path) as [[|nm items]|] eqn:E; try discriminate.
  destruct (str_eqb nm (e_name root)) eqn:En; [|discriminate]. apply str_eqb_eq in En. subst nm.
  assert (forall items e p, find_desc e items = Some p -> elem_at e p <> None /\
     forall i, i < List.length items -> exists c, elem_at e (firstn (S i) p) = Some c /\ nth_error items i = Some (path_name c)) as G.
  { clear. induction items as [|nm items IH]; intros e p H; simpl in H.
    - inversion H; subst. split; [discriminate|]. intros i Hi. simpl in Hi. lia.
    - destruct (find_index nm (e_children e)) as [k|] eqn:Ek; [|discriminate].
      destruct (nth_error (e_children e) k) as [c|] eqn:Ec; [|discriminate].
      destruct (find_desc c items) as [q|] eqn:Eq; [|discriminate]. inversion H; subst p.
      destruct (IH _ _ Eq) as [A B]. split; [simpl; rewrite Ec; auto|]. intros [|i] Hi.
      + simpl. rewrite Ec. exists c. split; auto. destruct (find_index_sound _ _ _ Ek) as [c' [H1 [H2 _]]].
        rewrite Ec in H1. inversion H1; subst c'. congruence.
      + simpl in Hi. destruct (B i ltac:(lia)) as [d [D1 D2]]. exists d. split; auto.
        change (firstn (S (S i)) (k :: q)) with (k :: firstn (S i) q). cbn [elem_at]. rewrite Ec. auto. }
  destruct (G _ _ _ H) as [A B]. destruct (elem_at root p) as [e|]; [|congruence]. exists e. split; auto.
  exists items. auto.
Qed.
Print Assumptions C37_located_exists.

(** With two siblings of the same name (the code accepts them, see C47) the path of the second designates the first. *)
Theorem C37_same_name_refuted : exists root p q, elem_wf root = true /\ elem_at root q <> None /\ p <> q
  /\ locate root (path_in root q) = Some p.
Proof.
  exists (Elem (lit "S") KdSystem [Elem (lit "x") ex_u16 []; Elem (lit "x") ex_u16 []]), [0], [1].
  split; [reflexivity|]. split; [discriminate|]. split; [discriminate|]. vm_compute. reflexivity.
Qed.
Print Assumptions C37_same_name_refuted.

(** With a name equal to the kind name of an unnamed sibling too: the unnamed one cannot be reached. *)
Theorem C37_kind_name_refuted : exists root p q, elem_wf root = true /\ elem_at root q <> None /\ p <> q
  /\ (forall e f, elem_at root p = Some e -> elem_at root q = Some f -> e_name e <> e_name f)
  /\ locate root (path_in root q) = Some p.
Proof.
  exists (Elem (lit "S") KdSystem [Elem (lit "ParameterBlock") KdBlock []; Elem [] KdBlock []]), [0], [1].
  split; [reflexivity|]. split; [discriminate|]. split; [discriminate|]. split; [|vm_compute; reflexivity].
  intros e f H1 H2. inversion H1; inversion H2; subst. discriminate.
Qed.
Print Assumptions C37_kind_name_refuted.

(** An element whose name holds a slash cannot be reached by its path. *)
Theorem C37_slash_refuted : exists root q, elem_wf root = true /\ elem_at root q <> None
  /\ locate root (path_in root q) = None.
Proof.
  exists (Elem (lit "S") KdSystem [Elem (lit "x/y") ex_u16 []]), [0].
  split; [reflexivity|]. split; [discriminate|]. vm_compute. reflexivity.
Qed.
Print Assumptions C37_slash_refuted.

(** ** C44 *)

(** Setting back the bytes got from an element restores its memory whatever happened in between, and changes no other
    byte. *)
Theorem C44_round_trip : forall root p e bb, elem_wf root = true -> List.length bb = footprint root -> elem_at root p = Some e ->
  exists bytes, get_bytes root p 0 bb = Ok bytes /\ List.length bytes = footprint e
    /\ forall bb2, List.length bb2 = footprint root ->
       exists bb3, set_bytes root p bytes 0 bb2 = Ok bb3 /\ List.length bb3 = footprint root
         /\ (forall i, offset root p <= i < offset root p + footprint e -> nth_error bb3 i = nth_error bb i)
         /\ (forall i, i < offset root p \/ offset root p + footprint e <= i -> nth_error bb3 i = nth_error bb2 i).
Proof. exact get_set_bytes. Qed.
Print Assumptions C44_round_trip.

Example C44_round_trip_nonvacuous :
  get_bytes ex_tree [0; 0] 0 (lit "abcdefghijklm") = Ok (lit "abcdefg")
  /\ set_bytes ex_tree [0; 0] (lit "abcdefg") 0 (lit "0123456789ABC") = Ok (lit "abcdefg789ABC").
Proof. split; vm_compute; reflexivity. Qed.

(** Bytes of another length are refused. *)
Theorem C44_wrong_length : forall root p e bytes base bb, elem_at root p = Some e -> List.length bytes <> footprint e ->
  set_bytes root p bytes base bb = Err.
Proof. exact set_bytes_size. Qed.
Print Assumptions C44_wrong_length.

(** The value of a bit parameter cannot be saved and restored this way: its size is zero. *)
Theorem C44_bit_parameter_refuted : exists root p bb bb2, elem_wf root = true /\ List.length bb = footprint root
  /\ List.length bb2 = footprint root /\ get_bytes root p 0 bb = Ok [] /\ set_bytes root p [] 0 bb2 = Ok bb2
  /\ access_get root (Fmt false false) (path_in root p) 0 bb = Ok (lit "1")
  /\ access_get root (Fmt false false) (path_in root p) 0 bb2 = Ok (lit "2").
Proof.
  exists (Elem (lit "Sys") KdSystem [ex_bits]), [0; 0], [byte_of 1], [byte_of 2].
  do 5 (split; [vm_compute; reflexivity|]). split; vm_compute; reflexivity.
Qed.
Print Assumptions C44_bit_parameter_refuted.

(** ** C56 *)

(** Setting the default values of an element gives every parameter below it its default value, and changes no byte outside
    the element. [holds_default]: the word of the parameter is the encoding of [pt_default], a string is empty, a bit
    block is zero. *)
Theorem C56_defaults : forall e off bb, elem_wf e = true -> off + footprint e <= List.length bb ->
  exists bb', set_defaults e off 0 bb = Ok bb' /\ List.length bb' = List.length bb
    /\ (forall i, i < off \/ off + footprint e <= i -> nth_error bb' i = nth_error bb i)
    /\ (forall p c, elem_at e p = Some c -> is_param (e_kind c) = true -> holds_default (e_kind c) (offset_in e p off) bb').
Proof. exact set_defaults_spec. Qed.
Print Assumptions C56_defaults.

Example C56_defaults_nonvacuous : exists bb', set_defaults ex_tree 0 0 (lit "abcdefghijklm") = Ok bb'
  /\ access_get ex_tree (Fmt false false) (lit "/Sys/Sub/blk/b") 0 bb' = Ok (lit "5")
  /\ access_get ex_tree (Fmt false false) (lit "/Sys/Sub/blk/arr") 0 bb' = Ok (lit "0 0 0")
  /\ access_get ex_tree (Fmt false false) (lit "/Sys/Sub/bits/high") 0 bb' = Ok (lit "0")
  /\ access_get ex_tree (Fmt false false) (lit "/Sys/Sub/str") 0 bb' = Ok [].
Proof. eexists. split; [vm_compute; reflexivity|]. repeat split; vm_compute; reflexivity. Qed.

(** The default of an integer parameter is its Min: it reads as such, and can be written back. *)
Theorem C56_integer_default : forall sg b lo hi f off bb, pt_wf (PInt sg b lo hi) = true -> off + b <= List.length bb ->
  holds_default (KdParam (PInt sg b lo hi)) off bb ->
  exists s, param_get_str (PInt sg b lo hi) f off bb = Ok s
    /\ (if f_raw f && f_hex f then canon_hex b s (word_of b lo) else canon_dec s lo)
    /\ param_set_str (PInt sg b lo hi) f s off bb = Ok bb.
Proof.
  intros sg b lo hi f off bb Hw Hoff H. simpl in H. pose proof Hw as Hw'. apply pt_wf_int in Hw. destruct Hw as [Hb [H1 [H2 H3]]].
  rewrite word_of_u32 in H by auto.
  destruct (int_write_back sg b lo hi f off bb lo Hw' Hoff H ltac:(lia)) as [s [G S]]. exists s. split; auto. split; auto.
  unfold param_get_str in G. cbn [pt_size] in G. rewrite H in G. cbn [obind from_bb_str] in G. inversion G; subst s.
  apply int_to_str_canon; auto. lia.
Qed.
Print Assumptions C56_integer_default.

Example C56_integer_default_nonvacuous :
  let bb := [byte_of 251; byte_of 255] in
  holds_default (KdParam (PInt true 2 (-5) 5)) 0 bb
  /\ param_get_str (PInt true 2 (-5) 5) (Fmt false false) 0 bb = Ok (lit "-5").
Proof. split; vm_compute; reflexivity. Qed.

(** The default of an enumeration is its first literal. *)
Theorem C56_enum_default : forall b l n ps h off bb, pt_wf (PEnum b ((l, n) :: ps)) = true -> off + b <= List.length bb ->
  (width_lo true b <= n <= width_hi true b)%Z ->
  holds_default (KdParam (PEnum b ((l, n) :: ps))) off bb ->
  param_get_str (PEnum b ((l, n) :: ps)) (Fmt false h) off bb = Ok l.
Proof.
  intros b l n ps h off bb Hw Hoff Hn H. simpl in H. apply pt_wf_enum in Hw. destruct Hw as [Hb _].
  rewrite word_of_u32 in H by auto. unfold param_get_str. cbn [pt_size]. rewrite H. cbn [obind from_bb_str enum_to_str f_raw].
  unfold enum_to_str. cbn [f_raw]. rewrite sign_extend_ct by auto.
  assert (word_of b (word_of b n) = word_of b n) as -> by (apply word_of_small, word_of_range).
  rewrite two_compl_word; auto. 2: apply size_ok_pos; auto. simpl. rewrite Z.eqb_refl. auto.
Qed.
Print Assumptions C56_enum_default.

Example C56_enum_default_nonvacuous :
  let bb := [byte_of 255] in
  holds_default (KdParam (PEnum 1 [(lit "minus", (-1)%Z); (lit "zero", 0%Z)])) 0 bb
  /\ param_get_str (PEnum 1 [(lit "minus", (-1)%Z); (lit "zero", 0%Z)]) (Fmt false false) 0 bb = Ok (lit "minus").
Proof. split; vm_compute; reflexivity. Qed.

(** The default of a floating point parameter is 0 even when its declared range excludes 0: the parameter then holds a value
    that it would refuse. *)
Theorem C56_float_default_refuted : exists a b off bb bb', pt_wf (PFloat a b) = true
  /\ set_defaults (Elem (lit "x") (KdParam (PFloat a b)) []) off 0 bb = Ok bb'
  /\ param_get_str (PFloat a b) (Fmt false false) off bb' = Ok (lit "0")
  /\ param_set_str (PFloat a b) (Fmt false false) (lit "0") off bb' = Err.
Proof.
  exists 1%Q, 2%Q, 0, [zero; zero; zero; zero]. eexists. split; [vm_compute; reflexivity|].
  split; [vm_compute; reflexivity|]. split; vm_compute; reflexivity.
Qed.
Print Assumptions C56_float_default_refuted.

(** At start-up, before any default is set, the memory of a parameter is zero even when its range excludes zero. *)
Theorem C56_initial_memory_refuted : exists root path, elem_wf root = true
  /\ access_get root (Fmt false false) path 0 (initial_blackboard root) = Ok (lit "0")
  /\ access_set root (Fmt false false) path (lit "0") 0 (initial_blackboard root) = Ok (false, initial_blackboard root).
Proof. exists ex_tree, (lit "/Sys/Sub/blk/a"). split; [reflexivity|]. split; vm_compute; reflexivity. Qed.
Print Assumptions C56_initial_memory_refuted.
