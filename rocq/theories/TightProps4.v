(** Defaults that are zero, and what a blank is. *)
From Coq Require Import List Arith ZArith Bool Ascii String Lia.
From Verif Require Import Base BaseProofs TextModel ParamTypeModel BlackboardModel ParamTypeSpec BitModel ArrayModel TreeModel TreeSpec TreeProofs TreeProps RemoteModel RemoteSpec RemoteProofs.
Import ListNotations.
Local Open Scope nat_scope.

(** The default of a parameter that is neither an integer nor an enumeration is the zero word, alone or in an array; a Boolean reads 0. *)
Theorem C56_zero_default : forall e off bb bb' p c t, elem_wf e = true -> off + footprint e <= List.length bb ->
  set_defaults e off 0 bb = Ok bb' -> elem_at e p = Some c ->
  (forall sg b lo hi, t <> PInt sg b lo hi) -> (forall b ps, t <> PEnum b ps) ->
  (e_kind c = KdParam t -> bb_read_int bb' (pt_size t) (offset_in e p off) = Ok 0%Z
     /\ (t = PBool -> forall h, param_get_str t (Fmt false h) (offset_in e p off) bb' = Ok (lit "0")))
  /\ (forall n, e_kind c = KdArray t n -> forall j, j < n -> bb_read_int bb' (pt_size t) (offset_in e p off + j * pt_size t) = Ok 0%Z).
Proof.
  intros e off bb bb' p c t W L S At NI NE.
  destruct (C56_defaults e off bb W L) as (bb2 & S2 & _ & _ & H). rewrite S in S2. inversion S2; subst bb2. clear S2.
  assert (Z : word_of (pt_size t) (pt_default t) = 0%Z).
  { destruct t as [sg b lo hi | | b ps | b n m | a b]; [exfalso; eapply NI; reflexivity| |exfalso; eapply NE; reflexivity| |];
      unfold pt_default, word_of; apply Z.mod_0_l; apply Z.pow_nonzero; lia. }
  split.
  - intros K. specialize (H p c At). rewrite K in H. specialize (H eq_refl). cbn [holds_default] in H. rewrite Z in H. split; auto.
    intros -> h. unfold param_get_str. rewrite H. destruct h; reflexivity.
  - intros n K j J. specialize (H p c At). rewrite K in H. specialize (H eq_refl). cbn [holds_default] in H. rewrite <- Z. auto.
Qed.
Print Assumptions C56_zero_default.

Definition zero_tree : elem := Elem (lit "Sys") KdSystem [Elem (lit "Sub") KdSubsystem
  [Elem (lit "b") (KdParam PBool) []; Elem (lit "q") (KdArray (PFix 2 3 4) 2) []; Elem (lit "i") (KdParam (PInt false 1 3 9)) []]].
Example C56_zero_default_nonvacuous : exists bb', set_defaults zero_tree 0 0 (lit "abcdef") = Ok bb'
  /\ bb' = [byte_of 0; byte_of 0; byte_of 0; byte_of 0; byte_of 0; byte_of 3] /\ elem_wf zero_tree = true.
Proof. eexists. split; [vm_compute; reflexivity|]. split; vm_compute; reflexivity. Qed.

(** The blanks taken away at the ends of a command and of its arguments are the space, the tabulations, the line and page breaks and the
    carriage return, and nothing else. *)
Theorem C34_blanks : forall c, is_blank c <-> nat_of_ascii c = 32 \/ 9 <= nat_of_ascii c <= 13.
Proof.
  intros c. unfold is_blank, blanks. rewrite in_map_iff. split.
  - intros (n & <- & I). simpl in I. repeat (destruct I as [<- | I]; [vm_compute; lia|]). destruct I.
  - intros H. exists (nat_of_ascii c). split; [apply ascii_nat_embedding|]. simpl. lia.
Qed.
Print Assumptions C34_blanks.

Example C34_blanks_nonvacuous : trim (lit "  a b" ++ [ascii_of_nat 9; ascii_of_nat 13]) = lit "a b".
Proof. vm_compute. reflexivity. Qed.
