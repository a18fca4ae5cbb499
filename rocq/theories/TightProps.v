(** Theorems of C16, C49, C60 and C66 added after wrong programs were tried. *)
From Coq Require Import List Arith ZArith QArith Qabs Qround Bool Ascii String Lia Lqa Permutation Sorted.
From Verif Require Import Base BaseProofs TextModel TextSpec CriterionModel CriterionSpec CriterionProofs RealModel RealSpec RealProofs ParamTypeModel ParamTypeSpec BlackboardModel BitModel ArrayModel TreeModel TreeSpec TreeProofs
  SyncModel DomainModel MgrModel MgrSpec MgrProofs Demo XmlModel XmlSpec XmlDemo DomXmlProps MapModel MapSpec MapProofs MapProps DeclModel IntProofs AdaptModel AdaptSpec AdaptProofs AdaptProps DeclDemo.
Import ListNotations.

(** ** C16: the order in which the literals of a type are listed *)

(** Dictionary order on the codes of the characters. *)
Definition comes_before (a b : str) : Prop :=
  (exists c r, b = a ++ c :: r) \/ exists p x y a' b', a = p ++ x :: a' /\ b = p ++ y :: b' /\ (bval x < bval y)%Z.

Lemma str_ltb_spec : forall a b, str_ltb a b = true <-> comes_before a b.
Proof.
  induction a as [|x a IH]; intros [|y b]; cbn [str_ltb].
  - split; [discriminate|]. intros [[c [r E]]|[p [c [d [a' [b' [E _]]]]]]]; [discriminate|destruct p; discriminate].
  - split; auto. intros _. left. exists y, b. auto.
  - split; [discriminate|]. intros [[c [r E]]|[p [c [d [a' [b' [_ [E _]]]]]]]]; [discriminate|destruct p; discriminate].
  - rewrite orb_true_iff, andb_true_iff, Z.ltb_lt, Z.eqb_eq, IH. split.
    + intros [L|[E L]].
      * right. exists [], x, y, a, b. auto.
      * assert (x = y) as -> by (apply bval_inj; auto).
        destruct L as [[c [r ->]]|[p [c [d [a' [b' [-> [-> L]]]]]]]]; [left; exists c, r; auto|]. right. exists (y :: p), c, d, a', b'. auto.
    + intros [[c [r E]]|[p [c [d [a' [b' [E1 [E2 L]]]]]]]].
      * inversion E; subst. right. split; auto. left. eauto.
      * destruct p as [|z p]; inversion E1; inversion E2; subst; [left; auto|]. right. split; auto. right. exists p, c, d, a', b'. auto.
Qed.

Lemma str_ltb_total : forall a b, str_ltb a b = false -> a = b \/ str_ltb b a = true.
Proof.
  induction a as [|x a IH]; intros [|y b]; cbn [str_ltb]; auto; try discriminate. rewrite orb_false_iff, andb_false_iff. intros [L E].
  destruct (Z.ltb_spec (bval y) (bval x)) as [Q|Q]; [auto|]. apply Z.ltb_ge in L. assert (bval x = bval y) as Q1 by lia.
  assert (x = y) as -> by (apply bval_inj; auto).
  rewrite Z.eqb_refl in *. destruct E as [E|E]; [discriminate|]. destruct (IH _ E) as [->|H]; auto.
Qed.

Lemma before_trans : forall a b c, comes_before a b -> comes_before b c -> comes_before a c.
Proof.
  intros a b c. rewrite <- !str_ltb_spec. revert b c. induction a as [|x a IH]; intros [|y b] [|z c]; cbn [str_ltb]; auto; try discriminate.
  rewrite !orb_true_iff, !andb_true_iff, !Z.ltb_lt, !Z.eqb_eq. intros [L|[E L]] [L2|[E2 L2]]; [left; lia|left; lia|left; lia|]. right. split; [lia|eauto].
Qed.

Lemma map_add_sorted : forall k v m, StronglySorted comes_before (map fst m) -> ~ In k (map fst m) -> StronglySorted comes_before (map fst (map_add k v m)).
Proof.
  intros k v m. induction m as [|[k' v'] m IH]; cbn [map_add map fst]; intros H N; [repeat constructor|].
  inversion H as [|? ? Hs Hf]; subst. destruct (str_ltb k k') eqn:L; cbn [map fst].
  - apply str_ltb_spec in L. constructor; [exact H|]. constructor; [exact L|]. eapply Forall_impl; [|exact Hf]. intros b Hb. eapply before_trans; eauto.
  - constructor; [apply IH; [auto|]; intros I; apply N; right; auto|]. destruct (str_ltb_total _ _ L) as [->|L2]; [exfalso; apply N; left; auto|]. apply str_ltb_spec in L2.
    rewrite Forall_forall in *. intros b Hb. apply (Permutation_in _ (Permutation_map fst (map_add_perm m k v))) in Hb. destruct Hb as [<-|Hb]; auto.
Qed.

(** However a type is built, its literals are listed in dictionary order, each once. *)
Theorem C16_listed : forall incl t, built incl t -> exists ls, cty_list t = lit "{" ++ join (lit ", ") ls ++ lit "}"
  /\ StronglySorted comes_before ls /\ NoDup ls /\ forall l, In l ls <-> exists v, cty_atomic t l = Some v.
Proof.
  intros incl t H. exists (map fst (cty_map t)). split; [reflexivity|].
  assert (StronglySorted comes_before (map fst (cty_map t))) as Q.
  { induction H as [|t v l t' B IH I E]; [destruct incl; repeat constructor|]. unfold cty_add in E. destruct (cty_incl t && (v =? - 2 ^ 31)%Z); [discriminate|].
    destruct (cty_incl t && _); [discriminate|]. destruct (map_find l (cty_map t)) eqn:F; [discriminate|]. destruct (existsb _ _); [discriminate|].
    inversion E; subst. cbn [cty_map]. apply map_add_sorted; auto. intros In_. apply in_map_iff in In_. destruct In_ as [[k w] [<- I1]]. cbn [fst] in F. clear -F I1.
    induction (cty_map t) as [|[k' w'] m IHm]; [destruct I1|]. cbn [map_find] in F. destruct (str_eqb k' k) eqn:Eq; [discriminate|].
    destruct I1 as [I1|I1]; [inversion I1; subst; rewrite str_eqb_refl in Eq; discriminate|auto]. }
  split; [exact Q|]. split.
  - assert (forall a, ~ comes_before a a) as Irr.
    { intros a. rewrite <- str_ltb_spec. induction a as [|x a IHa]; cbn [str_ltb]; [discriminate|]. rewrite orb_true_iff, andb_true_iff, Z.ltb_lt. intros [L|[_ L]]; [lia|auto]. }
    induction Q as [|a l Q IHQ Hf]; constructor; auto. intros I. rewrite Forall_forall in Hf. apply (Irr a). auto.
  - intros l. unfold cty_atomic. clear. induction (cty_map t) as [|[k w] m IH]; cbn [map fst In map_find]; [split; [intros []|intros [v E]; discriminate]|].
    destruct (str_eqb k l) eqn:E.
    + apply str_eqb_eq in E. subst. split; eauto.
    + rewrite <- IH. split; auto. intros [->|I]; auto. rewrite str_eqb_refl in E. discriminate.
Qed.
Print Assumptions C16_listed.

Example C16_listed_nonvacuous : exists t, built false t /\ cty_list t = lit "{A, B, a}".
Proof.
  exists (CritType false [(lit "A", 7); (lit "B", 2); (lit "a", 1)])%Z. split; [|reflexivity].
  apply (built_add false (CritType false [(lit "B", 2); (lit "a", 1)])%Z 7 (lit "A")); [|unfold is_int; lia|reflexivity].
  apply (built_add false (CritType false [(lit "B", 2)])%Z 1 (lit "a")); [|unfold is_int; lia|reflexivity].
  apply (built_add false (cty_new false) 2 (lit "B")); [constructor|unfold is_int; lia|reflexivity].
Qed.

(** ** C49: the texts that a handle gives *)

(** They are those of getParameter with real values and decimal output, whatever the value space and the output of the manager; an
    array gives the texts that getParameter joins. *)
Definition plain (m : mgr) : mgr :=
  Mgr (mg_doms m) (mg_main m) (mg_tuning m) (mg_allowed m) (mg_autosync m) false false (mg_crits m) (mg_trace m).
Theorem C49_texts : forall y m p e, system_ok y -> names_ok (sy_root y) -> param_at (sy_root y) p e ->
  (array_length (e_kind e) = 0%nat -> handle_get y p HKStr m = omap HStr (get_parameter y (path_in (sy_root y) p) (plain m)))
  /\ (array_length (e_kind e) <> 0%nat -> omap (fun v => match v with HStrs l => join (lit " ") l | _ => [] end) (handle_get y p HKStrs m)
        = get_parameter y (path_in (sy_root y) p) (plain m)).
Proof.
  intros y m p e Sy Nm He. pose proof (param_of_path _ _ _ Nm (proj1 (proj1 Sy)) He) as P. unfold get_parameter, access_get. rewrite P. rewrite (proj1 He).
  unfold handle_get. rewrite (proj1 He). unfold check_get, is_array. rewrite (proj2 He). cbn [mg_main mg_fmt plain mg_raw mg_hex andb].
  pose proof (proj2 He) as K. unfold mg_fmt. cbn [mg_raw mg_hex plain]. split; intros L.
  - rewrite L. cbn [hkind_array Nat.eqb negb Bool.eqb]. destruct (e_kind e) eqn:Ek; try discriminate K; cbn [leaf_get handle_read]; rewrite ?Nat.sub_0_r; auto.
    cbn [array_length] in L. pose proof (param_kind_wf _ _ _ (proj1 (proj1 Sy)) He) as W. rewrite Ek in W. cbn [kind_wf] in W. lia.
  - destruct (array_length (e_kind e)) eqn:La; [congruence|]. cbn [hkind_array Nat.eqb negb Bool.eqb].
    destruct (e_kind e); cbn [array_length] in La; try discriminate La; subst. cbn [leaf_get handle_read]. unfold array_access_get. cbn [array_index obind].
    rewrite Nat.sub_0_r. unfold array_get_text. destruct (array_get_list t _ (S n) _ _); reflexivity.
Qed.
Print Assumptions C49_texts.

(** A bit and an array of the example system, read in hexadecimal. *)
Example C49_texts_nonvacuous : system_ok xd /\ names_ok (sy_root xd) /\ exists m, run xd xd_state [CValueSpace true; COutputFormat true] = Ok ([true; true], m)
  /\ handle_get xd [0; 0; 0]%nat HKStr m = Ok (HStr (lit "-7")) /\ handle_get xd [0; 0; 4]%nat HKStrs m = Ok (HStrs [lit "on"; lit "off"])
  /\ get_parameter xd (lit "/Sys/Sub/mix/a") m = Ok (lit "0xFFF9").
Proof. split; [exact xd_ok|]. split; [exact xd_names|]. eexists. split; [vm_compute; reflexivity|]. split; [vm_compute; reflexivity|]. split; vm_compute; reflexivity. Qed.

(** ** C60: what a lookup by key gives *)

(** The key when a value was collected for it, nothing otherwise; never the value. *)
Theorem C60_by_key : forall sb base e p cx k, context_of sb base e p cx ->
  ((exists i v, nth_error (sb_keys sb) i = Some k /\ collected sb base e p i v) -> cx_find cx k = Some k)
  /\ ((forall i v, nth_error (sb_keys sb) i = Some k -> ~ collected sb base e p i v) -> cx_find cx k = None).
Proof.
  intros sb base e p cx k [_ C].
  assert (forall l, ((exists i v, nth_error l i = Some (Some (k, v))) -> cx_find l k = Some k) /\ ((forall i v, nth_error l i <> Some (Some (k, v))) -> cx_find l k = None)) as Q.
  { clear. induction l as [|[[k' v']|] l [IH1 IH2]]; cbn [cx_find].
    - split; auto. intros [[|i] [v E]]; discriminate.
    - destruct (str_eqb k k') eqn:E.
      + apply str_eqb_eq in E. subst. split; auto. intros H. exfalso. exact (H 0%nat v' eq_refl).
      + split.
        * intros [[|i] [v Ev]]; [inversion Ev; subst; rewrite str_eqb_refl in E; discriminate|]. apply IH1. exists i, v. exact Ev.
        * intros H. apply IH2. intros i v. exact (H (S i) v).
    - split.
      + intros [[|i] [v Ev]]; [discriminate|]. apply IH1. exists i, v. exact Ev.
      + intros H. apply IH2. intros i v. exact (H (S i) v). }
  destruct (Q cx) as [Q1 Q2]. split.
  - intros [i [v H]]. apply Q1. exists i, v. apply C. exact H.
  - intros H. apply Q2. intros i v E. apply C in E. destruct E as [E1 E2]. exact (H i v E1 E2).
Qed.
Print Assumptions C60_by_key.

Example C60_by_key_nonvacuous : exists cx, context_of demo_sub (sub_base demo_sub) (Inst (lit "sub") KdSubsystem [] demo_children) [0; 0]%nat cx
  /\ cx_find cx (lit "Device") = Some (lit "Device") /\ cx_find cx (lit "Volume") = None.
Proof.
  destruct C40_nonvacuous as [A1 [A2 [A3 [A4 [A5 _]]]]]. destruct (C40_objects _ _ _ _ A1 A2 A3 A4 A5) as [_ [_ O]].
  set (o := Object [0; 0]%nat 0 (lit "Volume") [Some (lit "Card", lit "hw:0"); Some (lit "Device", lit "7")]).
  destruct (O o) as [x [c [_ [_ C]]]]; [left; reflexivity|]. exists (ob_ctx o). split; [exact C|]. split; vm_compute; reflexivity.
Qed.

(** ** C66: what is undefined, and null slopes *)

Local Open Scope Z_scope.

(** When both operations are exact: writing a number is undefined exactly when the result, before or after the offset is added,
    does not fit in 64 bits. *)
Theorem C66_undefined : forall l sg b lo hi off num den rest d q o bb z, pt_wf (PInt sg b lo hi) = true -> (o + b <= List.length bb)%nat ->
  slope_ok num -> slope_ok den -> number_of d q -> (Qabs (q * num) <= Qpower 2 500)%Q ->
  is_double (q * num) -> is_double (q * num / den) -> truncated (q * num / den) z ->
  (int_set_dbl l (PInt sg b lo hi) (ALinear off num den :: rest) d o bb = UB
   <-> ~ (- 2 ^ 63 <= z < 2 ^ 63 /\ - 2 ^ 63 <= z + off < 2 ^ 63)).
Proof.
  intros l sg b lo hi off num den rest d q o bb z Hw Ho Hn Hd Hq B D1 D2 T. apply pt_wf_int in Hw. destruct Hw as (Hb & _). apply d_val_number in Hq.
  destruct (scaled_val d num den q Hq Hn Hd B) as (y & Y1 & Y2).
  assert (y == q * num / den)%Q as Y.
  { rewrite Y2. transitivity (round64 (q * num / den)); [|apply round64_exact; exact D2]. apply round64_comp. unfold Qdiv. apply Qmult_comp; [|reflexivity]. apply round64_exact. exact D1. }
  assert (q_trunc y = z) as Z1 by (rewrite (q_trunc_comp _ _ Y); apply (truncated_one _ _ _ (q_trunc_spec _) T)).
  assert (linear_from off num den d = if fits64 z then if fits64 (z + off) then Ok (z + off) else UB else UB) as E.
  { unfold linear_from, base_from, d_to_int64. rewrite Y1, Z1. destruct (fits64 z); reflexivity. }
  assert (forall v, fits64 v = true <-> - 2 ^ 63 <= v < 2 ^ 63) as F by (intros v; unfold fits64; rewrite andb_true_iff, !Z.leb_le; lia).
  destruct (fits64 z) eqn:F1; [destruct (fits64 (z + off)) eqn:F2|].
  - apply F in F1, F2. split; [|tauto]. intros H. exfalso. destruct (Z_le_dec lo (z + off)); [destruct (Z_le_dec (z + off) hi)|].
    + destruct (int_set_value l sg b lo hi (ALinear off num den) rest d o bb (z + off) Hb Ho E) as [bb' [Q _]]; [lia|]. congruence.
    + rewrite (int_set_out l sg b lo hi (ALinear off num den) rest d o bb (z + off) E) in H; [discriminate|lia].
    + rewrite (int_set_out l sg b lo hi (ALinear off num den) rest d o bb (z + off) E) in H; [discriminate|lia].
  - split; [|intros _; unfold int_set_dbl, int_of_dbl, adapt_from; rewrite E; reflexivity]. intros _ [_ K]. apply F in K. congruence.
  - split; [|intros _; unfold int_set_dbl, int_of_dbl, adapt_from; rewrite E; reflexivity]. intros _ [K _]. apply F in K. congruence.
Qed.
Print Assumptions C66_undefined.

(** 2 to the power 63 is undefined, the double before it is only out of range; so is minus 2 to the power 63, unless the offset is
    negative. *)
Example C66_undefined_nonvacuous : pt_wf (PInt true 4 (-100) 100) = true /\ slope_ok 1
  /\ is_double (inject_Z (2 ^ 63) * 1)%Q /\ is_double (inject_Z (2 ^ 63) * 1 / 1)%Q /\ truncated (inject_Z (2 ^ 63) * 1 / 1) (2 ^ 63)
  /\ forall l, int_set_dbl l (PInt true 4 (-100) 100) [ALinear 0 1 1] (DFin (inject_Z (2 ^ 63))) 0 [zero; zero; zero; zero] = UB
       /\ int_set_dbl l (PInt true 4 (-100) 100) [ALinear 0 1 1] (DFin (inject_Z (2 ^ 63 - 1024))) 0 [zero; zero; zero; zero] = Err
       /\ int_set_dbl l (PInt true 4 (-100) 100) [ALinear 0 1 1] (DFin (inject_Z (- 2 ^ 63))) 0 [zero; zero; zero; zero] = Err
       /\ int_set_dbl l (PInt true 4 (-100) 100) [ALinear (-1) 1 1] (DFin (inject_Z (- 2 ^ 63))) 0 [zero; zero; zero; zero] = UB.
Proof.
  split; [reflexivity|]. split; [split; vm_compute; discriminate|].
  split; [exists 1, 63; split; [vm_compute; reflexivity|]; split; [vm_compute; reflexivity|lia]|]. split; [exists 1, 63; split; [vm_compute; reflexivity|]; split; [vm_compute; reflexivity|lia]|].
  split; [split; [vm_compute; discriminate|]; split; [vm_compute; reflexivity|vm_compute; discriminate]|].
  intros l. split; [vm_compute; reflexivity|]. split; [vm_compute; reflexivity|]. split; vm_compute; reflexivity.
Qed.

(** Writing what is no number, an infinity or a NaN, is always undefined. *)
Theorem C66_no_number : forall l sg b lo hi off num den rest d o bb, slope_ok num -> slope_ok den -> (forall q, ~ number_of d q) ->
  int_set_dbl l (PInt sg b lo hi) (ALinear off num den :: rest) d o bb = UB.
Proof.
  intros l sg b lo hi off num den rest d o bb Hn Hd N. unfold int_set_dbl, int_of_dbl, adapt_from, linear_from, base_from, d_to_int64.
  destruct (d_val (d_div (d_mul d (DFin num)) (DFin den))) as [y|] eqn:E; [|reflexivity].
  destruct (mul_div_finite d num den y (slope_nz den Hd) E) as (p & y1 & A & _). exfalso. apply (N p). apply d_val_number. exact A.
Qed.
Print Assumptions C66_no_number.
Example C66_no_number_nonvacuous : slope_ok 4 /\ (forall q, ~ number_of (DInf true) q) /\ (forall q, ~ number_of DNan q).
Proof. split; [split; vm_compute; discriminate|]. split; intros q [H|[H _]]; discriminate. Qed.

(** A null slope: reading gives a NaN for the offset itself and an infinity for any other value, negative when the value is below
    the offset (above it when the denominator is negative). *)
Theorem C66_null_slope : forall l sg b lo hi off num den rest o bb v, pt_wf (PInt sg b lo hi) = true -> - 2 ^ 31 <= off <= 2 ^ 31 - 1 ->
  (num == 0)%Q -> slope_ok den -> lo <= v <= hi -> has_value b o bb v ->
  (v = off -> int_get_dbl l (PInt sg b lo hi) (ALinear off num den :: rest) o bb = Ok DNan)
  /\ (v <> off -> exists s, int_get_dbl l (PInt sg b lo hi) (ALinear off num den :: rest) o bb = Ok (DInf s) /\ (s = true <-> (inject_Z (v - off) * den < 0)%Q)).
Proof.
  intros l sg b lo hi off num den rest o bb v Hw Hf N Hd Hv Hx. apply pt_wf_int in Hw. destruct Hw as (Hb & Hr).
  assert (width_lo sg b <= v <= width_hi sg b) as Wv by lia. rewrite (int_get_value l sg b lo hi (ALinear off num den) rest o bb v Hb Wv Hx). cbn [adapt_to].
  pose proof (value_spans sg b v off Hb Wv Hf) as Sp. unfold linear_to, base_to. set (r := round64 (inject_Z (v - off))).
  assert (r == inject_Z (v - off))%Q as Er by (apply round64_exact, int_is_double; lia).
  rewrite (d_mul_fin (DFin r) (DFin den) r den eq_refl eq_refl). set (s0 := xorb _ _).
  assert (Qeq_bool num 0 = true) as Nb by (apply Qeq_bool_iff; exact N).
  split.
  - intros ->. assert (round64 (r * den) == 0)%Q as Z0 by (apply round64_0; rewrite Er, Z.sub_diag; unfold inject_Z; ring).
    unfold d_round. assert (Qeq_bool (round64 (r * den)) 0 = true) as -> by (apply Qeq_bool_iff; exact Z0).
    unfold d_zero. destruct s0; cbn [d_div d_val]; rewrite Nb; reflexivity.
  - intros Ne. assert (pow2 (-1022) <= Qabs (r * den))%Q as Big.
    { rewrite Er. apply (Qle_trans _ (inject_Z 1 * Qpower 2 (-400))); [vm_compute; discriminate|]. apply Qle_mul_abs; auto; [|vm_compute; discriminate].
      change (Qabs (inject_Z (v - off))) with (inject_Z (Z.abs (v - off))). rewrite <- Zle_Qle. lia. }
    destruct (round64_keep _ Big) as [K1 _]. assert (0 < pow2 (-1022))%Q as P0 by (vm_compute; reflexivity).
    assert (Qabs (round64 (r * den)) <= max64)%Q as Fi.
    { apply round64_fits. rewrite Er. apply (Qle_trans _ (inject_Z (2 ^ 33) * Qpower 2 400)); [apply Qmul_abs_le; auto|vm_compute; discriminate].
      change (Qabs (inject_Z (v - off))) with (inject_Z (Z.abs (v - off))). rewrite <- Zle_Qle. exact Sp. }
    set (w := round64 (r * den)) in *.
    assert (~ w == 0)%Q as Wn.
    { intros W0. rewrite W0 in K1. change (Qabs 0) with 0%Q in K1. lra. }
    unfold d_round. fold w. destruct (Qeq_bool w 0) eqn:W0; [apply Qeq_bool_iff in W0; contradiction|].
    rewrite (proj2 (Qle_bool_iff _ _) Fi). cbn [d_div d_val]. rewrite Nb, W0. eexists. split; [reflexivity|]. cbn [d_neg].
    assert (Qle_bool 0 num = true) as -> by (apply Qle_bool_iff; rewrite N; apply Qle_refl). cbn [negb]. rewrite xorb_false_r, negb_true_iff.
    rewrite <- not_true_iff_false, Qle_bool_iff. split.
    + intros H. destruct (Qlt_le_dec (inject_Z (v - off) * den) 0) as [Q|Q]; auto. exfalso. apply H. rewrite <- Er in Q.
      unfold w. rewrite <- (round64_0 0 (Qeq_refl 0)). apply round64_mono. exact Q.
    + intros H Q. rewrite <- Er in H. assert (w <= 0)%Q as Q2 by (unfold w; rewrite <- (round64_0 0 (Qeq_refl 0)); apply round64_mono; lra). apply Wn. lra.
Qed.
Print Assumptions C66_null_slope.

Example C66_null_slope_nonvacuous : pt_wf (PInt true 1 (-100) 100) = true /\ slope_ok (-2) /\ has_value 1 0 [byte_of 251] (-5)
  /\ forall l, int_get_dbl l (PInt true 1 (-100) 100) [ALinear 0 0 (-2)] 0 [byte_of 251] = Ok (DInf false) /\ int_get_dbl l (PInt true 1 (-100) 100) [ALinear 0 0 2] 0 [byte_of 251] = Ok (DInf true).
Proof. split; [reflexivity|]. split; [split; vm_compute; discriminate|]. split; [vm_compute; reflexivity|]. intros l. split; vm_compute; reflexivity. Qed.

(** The base of a logarithmic adaptation that does not give one is the double nearest to e, the sum of the inverses of the factorials
    (twenty terms are enough to tell). *)
Fixpoint inverse_factorials (n : nat) : Q * positive :=
  match n with
  | O => (1%Q, 1%positive)
  | S k => let (s, f) := inverse_factorials k in let f' := (f * Pos.of_succ_nat k)%positive in (Qred (s + (1 # f')), f')
  end.
Theorem C66_default_base : exists off num den base fl,
  decl_adaptation (el "LogarithmicAdaptation" [("FloorValue", "-96")]%string []) = Ok (ALog off num den base fl)
  /\ is_double base /\ forall e, (fst (inverse_factorials 20) <= e <= fst (inverse_factorials 20) + (2 # 20000000000000000000))%Q -> (Qabs (base - e) <= Qpower 2 (-52))%Q.
Proof.
  do 5 eexists. split; [vm_compute; reflexivity|]. split.
  - exists 6121026514868073, (-51). split; [vm_compute; reflexivity|]. split; [vm_compute; reflexivity|lia].
  - intros e [H1 H2]. apply Qabs_case; intros _; [|].
    + apply (Qle_trans _ ((6121026514868073 # 2251799813685248) - fst (inverse_factorials 20))); [lra|vm_compute; discriminate].
    + apply (Qle_trans _ (fst (inverse_factorials 20) + (2 # 20000000000000000000) - (6121026514868073 # 2251799813685248))); [lra|vm_compute; discriminate].
Qed.
Print Assumptions C66_default_base.
