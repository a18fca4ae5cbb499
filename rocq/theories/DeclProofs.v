(** Proofs about the reading of structure files. *)
From Coq Require Import List Arith ZArith QArith Qabs Bool Ascii String Lia.
From Verif Require Import Base BaseProofs TextModel TextSpec TextProofs TextProps RealModel RealSpec RealProofs ParamTypeModel ParamTypeSpec BitModel TreeModel TreeSpec
  MapModel MapSpec TypeModel TypeSpec TypeProofs XmlModel SyncModel DomXmlModel DeclModel DeclSpec.
Import ListNotations.
Local Open Scope Z_scope.

Lemma obind_Ok : forall A B (o : outcome A) (f : A -> outcome B) b, obind o f = Ok b <-> exists a, o = Ok a /\ f a = Ok b.
Proof. intros A B [a| | |] f b; simpl; split; try (intros [? [? ?]]; discriminate); try discriminate; eauto. intros (a' & E & H). inversion E. congruence. Qed.

Lemma each_Ok : forall A B (f : A -> outcome B) l ys, each f l = Ok ys <-> Forall2 (fun x y => f x = Ok y) l ys.
Proof.
  induction l as [|x l IH]; simpl; intros ys.
  - split; [intros H; inversion H; auto|intros H; inversion H; auto].
  - rewrite obind_Ok. split.
    + intros (y & E & H). apply obind_Ok in H. destruct H as (ys' & E' & H). inversion H; subst. constructor; auto. apply IH; auto.
    + intros H. inversion H; subst. exists y. split; auto. apply obind_Ok. exists l'. split; auto. apply IH; auto.
Qed.

Lemma no_child_Ok : forall x u, no_child x = Ok u <-> x_elems x = [].
Proof. intros x []. unfold no_child. destruct (x_elems x); split; intros; congruence. Qed.

Lemma not_here_not_Ok : forall A ty (a : A), not_here ty <> Ok a.
Proof. intros A ty a. unfold not_here. destruct (existsb _ _); discriminate. Qed.

(** ** Attributes *)

Definition chars_ok (x : xnode) : Prop := forall nm s, x_attr nm x = Some s -> ~ In "012"%char s.

Lemma attr_num_Ok : forall sg b nm d x v, chars_ok x -> (attr_num (TextModel.CType sg b) nm d x = Ok v <-> int_attr sg b nm d x v).
Proof.
  intros sg b nm d x v Hc. unfold attr_num, int_attr. destruct (x_attr nm x) as [s|] eqn:E.
  - pose proof (C39_convert_int_exact (TextModel.CType sg b) s v (Hc _ _ E)) as HX. split.
    + intros H. right. exists s. split; auto. apply HX. destruct (convertTo _ s); [inversion H; auto|discriminate].
    + intros [[H _]|(s' & E' & H)]; [discriminate|]. inversion E'; subst s'. apply HX in H. rewrite H. auto.
  - split; [intros H; inversion H; auto|]. intros [[_ ->]|(s' & E' & _)]; [auto|discriminate].
Qed.

Lemma attr_size_Ok : forall nm d x v, chars_ok x -> (attr_num t_uint64 nm d x = Ok v <-> size_attr nm d x v).
Proof. intros. apply (attr_num_Ok false 8); auto. Qed.
Lemma attr_word_Ok : forall nm d x v, chars_ok x -> (attr_num t_uint32 nm d x = Ok v <-> word_attr nm d x v).
Proof. intros. apply (attr_num_Ok false 4); auto. Qed.
Lemma attr_int_Ok : forall nm d x v, chars_ok x -> (attr_num t_int32 nm d x = Ok v <-> int_attr true 4 nm d x v).
Proof. intros. apply (attr_num_Ok true 4); auto. Qed.

Lemma attr_num_settled : forall t nm d x, attr_num t nm d x = Err \/ exists v, attr_num t nm d x = Ok v.
Proof. intros. unfold attr_num. destruct (x_attr nm x) as [s|]; eauto. destruct (convertTo t s); eauto. Qed.

Lemma attr_bool_Ok : forall nm d x v, attr_bool nm d x = Ok v <-> bool_attr nm d x v.
Proof.
  intros nm d x v. unfold attr_bool, bool_attr. destruct (x_attr nm x) as [s|] eqn:E.
  - unfold convert_bool.
    destruct (str_eqb s (lit "0") || str_eqb s (lit "FALSE") || str_eqb s (lit "false")) eqn:F.
    + rewrite !orb_true_iff, !str_eqb_eq in F. split.
      * intros H. inversion H; subst. right. right. split; auto. destruct F as [[->| ->]| ->]; auto.
      * intros [[H _]|[(-> & H)|(-> & H)]]; [discriminate| |auto].
        destruct H as [H|[H|H]]; inversion H; subst s; destruct F as [[K|K]|K]; discriminate K.
    + destruct (str_eqb s (lit "1") || str_eqb s (lit "TRUE") || str_eqb s (lit "true")) eqn:T.
      * rewrite !orb_true_iff, !str_eqb_eq in T. split.
        -- intros H. inversion H; subst. right. left. split; auto. destruct T as [[->| ->]| ->]; auto.
        -- intros [[H _]|[(-> & H)|(-> & H)]]; [discriminate|auto|].
           destruct H as [H|[H|H]]; inversion H; subst s; destruct T as [[K|K]|K]; discriminate K.
      * rewrite !orb_false_iff in F, T. split; [discriminate|].
        intros [[H _]|[(-> & H)|(-> & H)]]; [discriminate| |].
        -- destruct T as [[T1 T2] T3]. destruct H as [H|[H|H]]; inversion H; subst s; rewrite str_eqb_refl in *; discriminate.
        -- destruct F as [[T1 T2] T3]. destruct H as [H|[H|H]]; inversion H; subst s; rewrite str_eqb_refl in *; discriminate.
  - split; [intros H; inversion H; auto|].
    intros [[_ ->]|[(-> & H)|(-> & H)]]; [auto| |]; destruct H as [H|[H|H]]; discriminate.
Qed.

Lemma attr_real_sound : forall prec emin mx nm d x v, chars_ok x ->
  attr_real (convert_real prec emin mx) nm d x = Ok v -> real_attr (round_fp prec emin) mx nm d x v.
Proof.
  intros prec emin mx nm d x v Hc. unfold attr_real, real_attr. destruct (x_attr nm x) as [s|] eqn:E.
  - destruct (convert_real prec emin mx s) as [[neg r]|] eqn:C; [|discriminate]. intros H. inversion H; subst.
    destruct (convert_real_sound _ _ _ _ _ _ (Hc _ _ E) C) as (q & T & -> & Hm). right. exists s, neg, q.
    split; [auto|]. split; [auto|]. split; [auto|]. unfold signed_q; simpl. destruct neg; reflexivity.
  - intros H. inversion H. auto.
Qed.

Lemma attr_real_complete : forall prec emin mx nm d x v, real_attr (round_fp prec emin) mx nm d x v ->
  exists v', attr_real (convert_real prec emin mx) nm d x = Ok v' /\ (v' == v)%Q.
Proof.
  intros prec emin mx nm d x v [[E ->]|(s & neg & q & E & T & Hm & Hv)]; unfold attr_real; rewrite E.
  - exists d. split; [auto|reflexivity].
  - destruct (convert_real_complete prec emin mx neg s q T Hm) as (r & C & Hr). rewrite C. exists (signed_q (neg, r)). split; auto.
    rewrite Hv. unfold signed_q; simpl. destruct neg; rewrite Hr; reflexivity.
Qed.

Lemma attr_real_settled : forall cv nm d x, attr_real cv nm d x = Err \/ exists v, attr_real cv nm d x = Ok v.
Proof. intros. unfold attr_real. destruct (x_attr nm x) as [s|]; eauto. destruct (cv s); eauto. Qed.

(** ** Adaptations *)

Ltac nobind H := apply obind_Ok in H.

Lemma real_attr_dflt : forall rd mx nm d d' x v, x_attr nm x <> None -> real_attr rd mx nm d x v -> real_attr rd mx nm d' x v.
Proof. intros rd mx nm d d' x v N [[E _]|H]; [congruence|right; auto]. Qed.

Lemma Qeq_bool_false : forall a b, Qeq_bool a b = false <-> ~ (a == b)%Q.
Proof. intros. rewrite <- not_true_iff_false, Qeq_bool_iff. tauto. Qed.

Lemma Qle_bool_false : forall a b, Qle_bool a b = false <-> (b < a)%Q.
Proof. intros. rewrite <- not_true_iff_false, Qle_bool_iff. split; intros; [apply Qnot_le_lt; auto|apply Qlt_not_le; auto]. Qed.

Lemma exp_1_ok : Qle_bool exp_1 0 || Qeq_bool exp_1 1 = false.
Proof. vm_compute. reflexivity. Qed.

Lemma decl_adaptation_Ok : forall x, chars_ok x -> ((exists a, decl_adaptation x = Ok a) <-> adaptation_ok x).
Proof.
  intros x Hc. unfold decl_adaptation, adaptation_ok, double_attr.
  assert (L : (exists r, decl_linear x = Ok r) <->
     (exists off, int_attr true 4 (lit "Offset") 0 x off) /\ x_elems x = []
     /\ (exists num, real_attr round64 max64 (lit "SlopeNumerator") 1 x num)
     /\ (exists den, real_attr round64 max64 (lit "SlopeDenominator") 1 x den /\ ~ den == 0)%Q).
  { unfold decl_linear. split.
    - intros (r & H). nobind H. destruct H as (num & Hn & H). nobind H. destruct H as (den & Hd & H).
      destruct (Qeq_bool den 0) eqn:Z0; [discriminate|]. nobind H. destruct H as (off & Ho & H). nobind H. destruct H as (u & Hu & H).
      apply attr_int_Ok in Ho; auto. apply no_child_Ok in Hu. apply attr_real_sound in Hn; auto. apply attr_real_sound in Hd; auto.
      apply Qeq_bool_false in Z0. split; [eauto|]. split; [auto|]. split; [exists num; exact Hn|]. exists den. split; [exact Hd|auto].
    - intros ((off & Ho) & Hu & (num & Hn) & den & Hd & Z0).
      apply attr_real_complete in Hn. destruct Hn as (num' & Hn & _). apply attr_real_complete in Hd. destruct Hd as (den' & Hd & Ed).
      unfold convert_double. rewrite Hn. cbn [obind]. rewrite Hd. cbn [obind].
      destruct (Qeq_bool den' 0) eqn:Z1; [apply Qeq_bool_iff in Z1; rewrite Z1 in Ed; exfalso; apply Z0; symmetry; auto|].
      apply attr_int_Ok in Ho; auto. rewrite Ho. cbn [obind]. unfold no_child. rewrite Hu. simpl. eauto. }
  destruct (str_eqb (x_type x) (lit "LinearAdaptation")) eqn:T1.
  - apply str_eqb_eq in T1. split.
    + intros (a & H). nobind H. destruct H as (r & Hr & _). destruct L as [L _]. destruct (L (ex_intro _ r Hr)) as (A & B & C & D). tauto.
    + intros (A & B & C & D & _). destruct L as [_ L]. destruct (L (conj A (conj B (conj C D)))) as (r & Hr).
      rewrite Hr. simpl. destruct r as [[? ?] ?]. eauto.
  - destruct (str_eqb (x_type x) (lit "LogarithmicAdaptation")) eqn:T2.
    + assert (N1 : x_type x <> lit "LinearAdaptation") by (intros K; rewrite K, str_eqb_refl in T1; discriminate).
      apply str_eqb_eq in T2. split.
      * intros (a & H). nobind H. destruct H as (base & Hb & H). destruct (Qle_bool base 0 || Qeq_bool base 1) eqn:B0; [discriminate|].
        nobind H. destruct H as (fl & Hf & H). nobind H. destruct H as (r & Hr & _).
        destruct L as [L _]. destruct (L (ex_intro _ r Hr)) as (A & B & C & D). do 4 (split; [assumption|]). right. split; auto. split.
        -- destruct (x_attr (lit "LogarithmBase") x) eqn:EB; [right|left; auto].
           apply orb_false_iff in B0. destruct B0 as [B1 B2]. apply Qle_bool_false in B1. apply Qeq_bool_false in B2.
           exists base. split; [|split; auto]. apply attr_real_sound in Hb; auto. eapply real_attr_dflt; [|exact Hb]. congruence.
        -- destruct (x_attr (lit "FloorValue") x) as [s|] eqn:EF.
           ++ destruct (convert_double s) eqn:CF; [|discriminate].
              exists (signed_q p). apply (attr_real_sound 53 (-1074) max64); auto. unfold attr_real. rewrite EF. unfold convert_double in CF. rewrite CF. auto.
           ++ exists 0%Q. left. auto.
      * intros (A & B & C & D & [E|(_ & EB & fl & EF)]); [congruence|].
        destruct L as [_ L]. destruct (L (conj A (conj B (conj C D)))) as (r & Hr).
        assert (HB : exists b', attr_real convert_double (lit "LogarithmBase") exp_1 x = Ok b' /\ Qle_bool b' 0 || Qeq_bool b' 1 = false).
        { destruct EB as [EB|(base & HB & B1 & B2)].
          - exists exp_1. unfold attr_real. rewrite EB. split; [auto|apply exp_1_ok].
          - assert (HB' : real_attr (round_fp 53 (-1074)) max64 (lit "LogarithmBase") exp_1 x base \/ (x_attr (lit "LogarithmBase") x = None)).
            { destruct (x_attr (lit "LogarithmBase") x) eqn:EX; [left|right; auto]. eapply real_attr_dflt; [|exact HB]. congruence. }
            destruct HB' as [HB'|EX].
            + apply attr_real_complete in HB'. destruct HB' as (b' & K & Eq). exists b'. split; [exact K|].
              apply orb_false_iff. split; [apply Qle_bool_false; rewrite Eq; auto|apply Qeq_bool_false; rewrite Eq; auto].
            + exists exp_1. unfold attr_real. rewrite EX. split; [auto|apply exp_1_ok]. }
        destruct HB as (b' & HB & Hok). rewrite HB. cbn [obind]. rewrite Hok.
        assert (HF : exists f', match x_attr (lit "FloorValue") x with
                     | None => Ok None
                     | Some s => match convert_double s with Some v => Ok (Some (signed_q v)) | None => Err end
                     end = Ok f').
        { destruct EF as [[EF _]|(s & neg & q & EF & TF & MF & _)]; rewrite EF; [eauto|].
          destruct (convert_real_complete 53 (-1074) max64 neg s q TF MF) as (r0 & CF & _). unfold convert_double. rewrite CF. eauto. }
        destruct HF as (f' & HF). rewrite HF. cbn [obind]. rewrite Hr. simpl. destruct r as [[? ?] ?]. eauto.
    + split; [intros (a & H); destruct (not_here_not_Ok _ _ _ H)|].
      intros (_ & _ & _ & _ & [E|(E & _)]); rewrite E, str_eqb_refl in *; discriminate.
Qed.

(** ** Parameters *)

Lemma inside_child : forall x c, In c (x_elems x) -> inside x c.
Proof. intros. econstructor; eauto. constructor. Qed.

Lemma conforms_child : forall x c, conforms x -> In c (x_elems x) -> conforms c.
Proof. intros x c H Hc y Hy. apply H. econstructor; eauto. Qed.

Lemma conforms_chars : forall x, conforms x -> chars_ok x.
Proof. intros x H. destruct (H x (ins_self x)); auto. Qed.

Lemma size_attr_text : forall nm x v P, attr_in nm x P -> x_attr nm x <> None -> size_attr nm 0 x v -> P v.
Proof. intros nm x v P H N [[E _]|(s & E & T & _)]; [congruence|eauto]. Qed.

Lemma decl_pair_Ok : forall x p, chars_ok x -> (decl_pair x = Ok p <-> pair_declared x p).
Proof.
  intros x [l v] Hc. unfold decl_pair, pair_declared; cbn [fst snd]. destruct (str_eqb (x_type x) (lit "ValuePair")) eqn:T.
  - apply str_eqb_eq in T. split.
    + intros H. nobind H. destruct H as (v' & Hv & H). nobind H. destruct H as (u & Hu & H). inversion H; subst.
      apply attr_int_Ok in Hv; auto. apply no_child_Ok in Hu. auto.
    + intros (_ & Hu & -> & Hv). apply attr_int_Ok in Hv; auto. rewrite Hv. cbn [obind]. unfold no_child. rewrite Hu. auto.
  - split; [intros H; destruct (not_here_not_Ok _ _ _ H)|]. intros (E & _). rewrite E, str_eqb_refl in T. discriminate.
Qed.

Lemma Forall2_iff : forall A B (R S : A -> B -> Prop) l l', (forall x y, In x l -> (R x y <-> S x y)) -> (Forall2 R l l' <-> Forall2 S l l').
Proof.
  intros A B R S l l' H. split; intros F; induction F; constructor; try (apply H; simpl; auto); apply IHF; intros; apply H; simpl; auto.
Qed.

Lemma decl_int_Ok : forall x, conforms x -> x_type x = lit "IntegerParameter" ->
  (forall t ads, decl_int x = Ok (t, ads) -> type_declared x t)
  /\ (forall t, type_declared x t -> exists ads, decl_int x = Ok (t, ads)).
Proof.
  intros x Hcf T. assert (Hc := conforms_chars _ Hcf). unfold decl_int. split.
  - intros t ads H. nobind H. destruct H as (bits & Hb & H). nobind H. destruct H as (sg & Hs & H).
    destruct ((bits =? 8) || (bits =? 16) || (bits =? 32)) eqn:B; [|discriminate].
    nobind H. destruct H as (lo & Hl & H). nobind H. destruct H as (hi & Hh & H). destruct (hi <? lo) eqn:R; [discriminate|].
    nobind H. destruct H as (ads' & Ha & H). inversion H; subst.
    apply attr_size_Ok in Hb; auto. apply attr_bool_Ok in Hs. apply attr_num_Ok in Hl; auto. apply attr_num_Ok in Hh; auto.
    apply each_Ok in Ha. rewrite !orb_true_iff, !Z.eqb_eq in B. apply Z.ltb_ge in R.
    assert (E : bits = 8 * Z.of_nat (Z.to_nat (bits / 8)) /\ (Z.to_nat (bits / 8) = 1 \/ Z.to_nat (bits / 8) = 2 \/ Z.to_nat (bits / 8) = 4)%nat).
    { destruct B as [[->| ->]| ->]; vm_compute; auto. }
    destruct E as [E1 E2]. apply td_int; auto.
    + apply Forall_forall. intros c Hin. destruct (Forall2_In_l _ _ _ _ _ _ Ha Hin) as (a & _ & K).
      apply decl_adaptation_Ok; [apply conforms_chars; eapply conforms_child; eauto|eauto].
    + rewrite <- E1. auto.
  - intros t Ht. destruct Ht as [E|sg bytes lo hi E Ha Hb Hsz Hs Hl Hh R|bytes ps E|bytes n m E|lo hi E]; try (rewrite E in T; discriminate).
    apply attr_size_Ok in Hsz; auto. rewrite Hsz. cbn [obind]. apply attr_bool_Ok in Hs. rewrite Hs. cbn [obind].
    assert (E1 : ((8 * Z.of_nat bytes =? 8) || (8 * Z.of_nat bytes =? 16) || (8 * Z.of_nat bytes =? 32)) = true /\ Z.to_nat (8 * Z.of_nat bytes / 8) = bytes).
    { destruct Hb as [->|[->| ->]]; vm_compute; auto. }
    destruct E1 as [-> ->]. apply attr_num_Ok in Hl; auto. apply attr_num_Ok in Hh; auto.
    unfold ct_lo, ct_hi; cbn [ct_signed ct_bytes]. unfold width_lo, width_hi in *. rewrite Hl. cbn [obind]. rewrite Hh. cbn [obind].
    assert (R' : (hi <? lo) = false) by (apply Z.ltb_ge; lia). rewrite R'.
    assert (A : exists ads, each decl_adaptation (x_elems x) = Ok ads).
    { rewrite Forall_forall in Ha. assert (K : forall c, In c (x_elems x) -> exists a, decl_adaptation c = Ok a).
      { intros c Hin. apply decl_adaptation_Ok; [apply conforms_chars; eapply conforms_child; eauto|auto]. }
      clear - K. induction (x_elems x) as [|c l IH]; simpl; [eauto|]. destruct (K c) as (a & Ea); simpl; auto. rewrite Ea. simpl.
      destruct IH as (ads & Eads); [intros; apply K; simpl; auto|]. rewrite Eads. simpl. eauto. }
    destruct A as (ads & A). rewrite A. simpl. eauto.
Qed.

Lemma size_bytes : forall bits, bits = 8 \/ bits = 16 \/ bits = 32 \/ bits = 64 -> bits = 8 * Z.of_nat (Z.to_nat (bits / 8)).
Proof. intros bits [->|[->|[->| ->]]]; reflexivity. Qed.

Lemma bytes_div : forall b, Z.to_nat (8 * Z.of_nat b / 8) = b.
Proof. intros. rewrite Z.mul_comm, Z.div_mul by lia. lia. Qed.

Lemma decl_enum_Ok : forall x t, conforms x -> x_type x = lit "EnumParameter" -> (decl_enum x = Ok t <-> type_declared x t).
Proof.
  intros x t Hcf T. assert (Hc := conforms_chars _ Hcf). unfold decl_enum. split.
  - destruct (x_attr (lit "Size") x) as [s|] eqn:E; [|discriminate]. destruct (convertTo t_uint64 s) as [bits|] eqn:C; [|discriminate].
    intros H. nobind H. destruct H as (ps & Hp & H). inversion H; subst.
    assert (A : size_attr (lit "Size") 0 x bits). { apply attr_size_Ok; auto. unfold attr_num. rewrite E, C. auto. }
    assert (B : bits = 8 \/ bits = 16 \/ bits = 32 \/ bits = 64).
    { destruct (Hcf x (ins_self x)) as [_ K _ _ _ _ _]. specialize (K T). pose proof (size_attr_text _ _ _ _ K ltac:(congruence) A) as HH; simpl in HH; lia. }
    apply td_enum; auto; [congruence|rewrite <- size_bytes; auto|].
    apply each_Ok in Hp. eapply Forall2_iff; [|exact Hp]. intros c p Hin. symmetry. apply decl_pair_Ok. apply conforms_chars; eapply conforms_child; eauto.
  - intros Ht. destruct Ht as [E|sg bytes lo hi E|bytes ps E N Hsz Hp|bytes n m E|lo hi E]; try (rewrite E in T; discriminate).
    destruct (x_attr (lit "Size") x) as [s|] eqn:ES; [|congruence].
    apply attr_size_Ok in Hsz; auto. unfold attr_num in Hsz. rewrite ES in Hsz. destruct (convertTo t_uint64 s) as [z|]; [|discriminate]. assert (Ez : z = 8 * Z.of_nat bytes) by congruence. rewrite Ez.
    assert (P : each decl_pair (x_elems x) = Ok ps).
    { apply each_Ok. eapply Forall2_iff; [|exact Hp]. intros c p Hin. apply decl_pair_Ok. apply conforms_chars; eapply conforms_child; eauto. }
    rewrite P. cbn [obind]. rewrite bytes_div. auto.
Qed.

Lemma word_range : forall nm x v, word_attr nm 0 x v -> 0 <= v < 2 ^ 32.
Proof. intros nm x v [[_ ->]|(s & _ & _ & R & _)]; [lia|]. unfold width_lo, width_hi in R; simpl in R. lia. Qed.
Lemma size_range : forall nm x v, size_attr nm 0 x v -> 0 <= v < 2 ^ 64.
Proof. intros nm x v [[_ ->]|(s & _ & _ & R & _)]; [lia|]. unfold width_lo, width_hi in R; simpl in R. lia. Qed.

Lemma decl_fix_Ok : forall x t, conforms x -> x_type x = lit "FixedPointParameter" -> (decl_fix x = Ok t <-> type_declared x t).
Proof.
  intros x t Hcf T. assert (Hc := conforms_chars _ Hcf). destruct (Hcf x (ins_self x)) as [_ _ Ksz Kb _ _ _]. specialize (Ksz T). specialize (Kb T).
  unfold decl_fix. split.
  - intros H. nobind H. destruct H as (bits & Hb & H). nobind H. destruct H as (n & Hn & H). nobind H. destruct H as (m & Hm & H).
    apply attr_size_Ok in Hb; auto. apply attr_word_Ok in Hn; auto. apply attr_word_Ok in Hm; auto.
    assert (Rn := word_range _ _ _ Hn). assert (Rm := word_range _ _ _ Hm). assert (Rs := Kb _ _ Hn Hm).
    assert (W : to_ctype t_uint32 (n + m + 1) = n + m + 1).
    { unfold to_ctype; simpl. apply Z.mod_small. lia. }
    rewrite W in H. destruct (bits <? n + m + 1) eqn:L; [discriminate|]. apply Z.ltb_ge in L.
    nobind H. destruct H as (u & Hu & H). inversion H; subst. apply no_child_Ok in Hu.
    assert (B : bits = 8 \/ bits = 16 \/ bits = 32 \/ bits = 64).
    { destruct (x_attr (lit "Size") x) eqn:ES.
      - pose proof (size_attr_text _ _ _ _ Ksz ltac:(congruence) Hb) as HH; simpl in HH; lia.
      - destruct Hb as [[_ ->]|(s & ES' & _)]; [lia|congruence]. }
    assert (E8 := size_bytes _ B). apply td_fix; auto; [rewrite <- E8; auto|rewrite Z2Nat.id by lia; auto|rewrite Z2Nat.id by lia; auto|lia].
  - intros Ht. destruct Ht as [E|sg bytes lo hi E|bytes ps E|bytes n m E Hu Hsz Hn Hm L|lo hi E]; try (rewrite E in T; discriminate).
    assert (Rs := Kb _ _ Hn Hm).
    apply attr_size_Ok in Hsz; auto. apply attr_word_Ok in Hn; auto. apply attr_word_Ok in Hm; auto. rewrite Hsz. cbn [obind]. rewrite Hn. cbn [obind]. rewrite Hm. cbn [obind].
    assert (W : to_ctype t_uint32 (Z.of_nat n + Z.of_nat m + 1) = Z.of_nat n + Z.of_nat m + 1).
    { unfold to_ctype; simpl. apply Z.mod_small. lia. }
    rewrite W. destruct (8 * Z.of_nat bytes <? _) eqn:LL; [apply Z.ltb_lt in LL; lia|]. unfold no_child. rewrite Hu. cbn [obind]. rewrite bytes_div, !Nat2Z.id. auto.
Qed.

Lemma decl_float_Ok : forall x, conforms x -> x_type x = lit "FloatingPointParameter" ->
  (forall t, decl_float x = Ok t -> type_declared x t) /\ (forall t, type_declared x t -> exists t', decl_float x = Ok t').
Proof.
  intros x Hcf T. assert (Hc := conforms_chars _ Hcf). unfold decl_float. split.
  - intros t H. nobind H. destruct H as (bits & Hb & H). destruct (bits =? 32) eqn:B; [|discriminate]. apply Z.eqb_eq in B. subst bits.
    nobind H. destruct H as (lo & Hl & H). nobind H. destruct H as (hi & Hh & H). destruct (Qle_bool lo hi) eqn:R; [|discriminate]. apply Qle_bool_iff in R.
    nobind H. destruct H as (u & Hu & H). inversion H; subst. apply no_child_Ok in Hu.
    apply attr_size_Ok in Hb; auto. apply attr_real_sound in Hl; auto. apply attr_real_sound in Hh; auto. apply td_float; auto.
  - intros t Ht. destruct Ht as [E|sg bytes lo hi E|bytes ps E|bytes n m E|lo hi E Hu Hsz Hl Hh R]; try (rewrite E in T; discriminate).
    apply attr_size_Ok in Hsz; auto. rewrite Hsz. cbn [obind]. apply attr_real_complete in Hl. destruct Hl as (lo' & Hl & El).
    apply attr_real_complete in Hh. destruct Hh as (hi' & Hh & Eh). unfold convert_float. rewrite Hl. cbn [obind]. rewrite Hh. cbn [obind].
    assert (R' : Qle_bool lo' hi' = true) by (apply Qle_bool_iff; rewrite El, Eh; auto). rewrite R'. unfold no_child. rewrite Hu. simpl. eauto.
Qed.

(** ** Bit parameters *)

Lemma max_encodable : forall p s b mx, 1 <= s <= 64 -> bit_max_encodable (BitType p s mx b) = 2 ^ s - 1.
Proof.
  intros p s b mx R. unfold bit_max_encodable; cbn [bt_size]. rewrite Z.shiftr_div_pow2 by lia.
  replace (2 ^ 64 - 1) with ((2 ^ s - 1) * 2 ^ (64 - s) + (2 ^ (64 - s) - 1)).
  - rewrite Z.div_add_l by lia. rewrite Z.div_small; [lia|]. assert (0 < 2 ^ (64 - s)) by (apply Z.pow_pos_nonneg; lia). lia.
  - replace (2 ^ 64) with (2 ^ s * 2 ^ (64 - s)); [lia|]. rewrite <- Z.pow_add_r by lia. f_equal. lia.
Qed.

Lemma decl_length_Ok : forall x n, chars_ok x -> (decl_length x = Ok n <-> array_length x n).
Proof.
  intros x n Hc. unfold decl_length, array_length. rewrite <- attr_size_Ok by auto.
  split.
  - destruct (attr_num t_uint64 (lit "ArrayLength") 0 x) eqn:E; simpl; intros H; inversion H; subst.
    apply attr_size_Ok in E; auto. apply size_range in E. rewrite Z2Nat.id by lia. auto.
  - intros ->. unfold omap; cbn [obind]. rewrite Nat2Z.id. auto.
Qed.

Lemma decl_bit_Ok : forall b x nb, (b <= 8)%nat -> conforms x -> (decl_bit b x = Ok nb <-> bit_declared b x nb).
Proof.
  intros b x [nm t] Hb8 Hcf. assert (Hc := conforms_chars _ Hcf). destruct (Hcf x (ins_self x)) as [_ _ _ _ _ Kp Ks].
  unfold decl_bit, bit_declared; cbv zeta; cbn [fst snd]. destruct (str_eqb (x_type x) (lit "BitParameter")) eqn:T.
  - apply str_eqb_eq in T. specialize (Kp T). destruct (Ks T) as [Ns Ks']. split.
    + intros H. nobind H. destruct H as (bp & Hp & H). nobind H. destruct H as (sz & Hs & H).
      apply attr_size_Ok in Hp; auto. apply attr_size_Ok in Hs; auto.
      assert (Rs : 1 <= sz <= 64) by exact (size_attr_text _ _ _ _ Ks' Ns Hs).
      assert (Rp : 0 <= bp <= 63).
      { destruct (x_attr (lit "Pos") x) eqn:EP; [exact (size_attr_text _ _ _ _ Kp ltac:(congruence) Hp)|].
        destruct Hp as [[_ ->]|(s & EP' & _)]; [lia|congruence]. }
      assert (W : to_ctype t_uint64 (bp + sz) = bp + sz). { unfold to_ctype; simpl. apply Z.mod_small. lia. }
      rewrite W in H. destruct (8 * Z.of_nat b <? bp + sz) eqn:L; [discriminate|]. apply Z.ltb_ge in L.
      destruct ((sz <? 1) || (64 <? sz)) eqn:U; [discriminate|]. rewrite max_encodable in H by lia.
      nobind H. destruct H as (mx & Hm & H). destruct (2 ^ sz - 1 <? mx) eqn:M; [discriminate|]. apply Z.ltb_ge in M.
      nobind H. destruct H as (len & Hlen & H). nobind H. destruct H as (u & Hu & H). inversion H; subst; simpl.
      apply attr_size_Ok in Hm; auto. apply no_child_Ok in Hu. apply decl_length_Ok in Hlen; auto.
      do 10 (split; [solve [auto|lia]|]). exists len. auto.
    + destruct t as [bp sz mx blk]; cbn [bt_pos bt_size bt_max bt_block]. intros (_ & Hu & -> & -> & Hp & Hs & Rs1 & L & Hm & M & len & Hlen).
      assert (Rp := size_range _ _ _ Hp).
      apply attr_size_Ok in Hp; auto. apply attr_size_Ok in Hs; auto. rewrite Hp. cbn [obind]. rewrite Hs. cbn [obind].
      assert (W : to_ctype t_uint64 (bp + sz) = bp + sz). { unfold to_ctype; simpl. apply Z.mod_small. lia. }
      rewrite W. destruct (8 * Z.of_nat b <? bp + sz) eqn:LL; [apply Z.ltb_lt in LL; lia|].
      assert (U : (sz <? 1) || (64 <? sz) = false) by (apply orb_false_iff; split; apply Z.ltb_ge; lia). rewrite U.
      rewrite max_encodable by lia. apply attr_size_Ok in Hm; auto. rewrite Hm. cbn [obind].
      assert (M' : (2 ^ sz - 1 <? mx) = false) by (apply Z.ltb_ge; lia). rewrite M'. apply decl_length_Ok in Hlen; auto. rewrite Hlen. cbn [obind].
      unfold no_child. rewrite Hu. auto.
  - split; [intros H; destruct (not_here_not_Ok _ _ _ H)|]. intros (E & _). rewrite E, str_eqb_refl in T. discriminate.
Qed.

(** ** Type elements *)

Lemma xnode_ind_nested : forall P : xnode -> Prop,
  (forall s, P (XText s)) -> (forall ty a c, Forall P c -> P (XElem ty a c)) -> forall x, P x.
Proof.
  intros P HT HE. fix IH 1. intros [s|ty a c]; [apply HT|]. apply HE. induction c; constructor; auto.
Qed.

Lemma x_elems_In : forall ty a c y, In y (x_elems (XElem ty a c)) -> In y c.
Proof. unfold x_elems; simpl; intros ty a c y H. apply filter_In in H. tauto. Qed.

Lemma x_elems_XElem : forall x c, In c (x_elems x) -> exists ty a l, c = XElem ty a l.
Proof. intros x c H. unfold x_elems in H. apply filter_In in H. destruct H as [_ H]. destruct c; [discriminate|eauto]. Qed.

Definition decl_tels (l : list xnode) : outcome (list tel) := each decl_tel (filter is_elem l).

Lemma decl_block_content : forall content,
  (fix go (l : list xnode) : outcome (list tel) :=
     match l with
     | [] => Ok []
     | XText _ :: r => go r
     | c :: r => do t <- decl_tel c; do ts <- go r; Ok (t :: ts)
     end) content = decl_tels content.
Proof.
  unfold decl_tels. induction content as [|[s|ty a c] r IH]; simpl; auto. destruct (decl_tel (XElem ty a c)) eqn:E; simpl in E; rewrite ?E; simpl; auto.
  rewrite IH. auto.
Qed.

Lemma decl_tel_unfold : forall ty a c, decl_tel (XElem ty a c) =
  let x := XElem ty a c in
      do len <- decl_length x;
      if str_eqb ty (lit "BooleanParameter") then leaf x (do _ <- no_child x; Ok (scalar_or_array PBool len))
      else if str_eqb ty (lit "IntegerParameter") then leaf x (do t <- decl_int x; Ok (scalar_or_array (fst t) len))
      else if str_eqb ty (lit "EnumParameter") then leaf x (do t <- decl_enum x; Ok (scalar_or_array t len))
      else if str_eqb ty (lit "FixedPointParameter") then leaf x (do t <- decl_fix x; Ok (scalar_or_array t len))
      else if str_eqb ty (lit "FloatingPointParameter") then leaf x (do t <- decl_float x; Ok (scalar_or_array t len))
      else if str_eqb ty (lit "StringParameter") then
        leaf x (do n <- attr_num t_uint64 (lit "MaxLength") 0 x; do _ <- no_child x; Ok (KdString (Z.to_nat n)))
      else if str_eqb ty (lit "BitParameterBlock") then
        do bits <- attr_num t_uint64 (lit "Size") 0 x;
        let b := Z.to_nat (bits / 8) in
        do bs <- each (decl_bit b) (x_elems x); Ok (TBits (x_name x) b (decl_mapping x) bs)
      else if str_eqb ty (lit "ParameterBlock") then
        do cs <- each decl_tel (x_elems x); Ok (TBlock (x_name x) (decl_mapping x) len cs)
      else if str_eqb ty (lit "Component") then
        match x_elems x with
        | [] => Ok (TComp (x_name x) (decl_mapping x) len (x_attr0 (lit "Type") x))
        | _ :: _ => UB
        end
      else not_here ty.
Proof.
  intros ty a c. cbn [decl_tel]. rewrite decl_block_content. reflexivity.
Qed.

Lemma shape_of : forall t len, shape t len (scalar_or_array t len).
Proof. intros t [|n]; [left|right]; simpl; auto. Qed.
Lemma shape_det : forall t len k, shape t len k -> k = scalar_or_array t len.
Proof. intros t len k [[-> ->]|[H ->]]; [auto|]. destruct len; [congruence|auto]. Qed.

(** The elements of different types. *)
Ltac tags := repeat match goal with |- context [if str_eqb (lit ?a) (lit ?b) then _ else _] =>
  let r := eval vm_compute in (str_eqb (lit a) (lit b)) in change (str_eqb (lit a) (lit b)) with r; cbv iota end.

Lemma leaf_Ok : forall x k t, leaf x k = Ok t -> exists k', k = Ok k' /\ t = TLeaf (x_name x) k' (x_attr0 (lit "Mapping") x).
Proof. intros x k t H. unfold leaf in H. nobind H. destruct H as (k' & E & H). inversion H. eauto. Qed.

Lemma block_bytes : forall x bits, conforms x -> x_type x = lit "BitParameterBlock" -> size_attr (lit "Size") 0 x bits ->
  bits = 8 * Z.of_nat (Z.to_nat (bits / 8)) /\ (Z.to_nat (bits / 8) = 0 \/ Z.to_nat (bits / 8) = 1 \/ Z.to_nat (bits / 8) = 2 \/ Z.to_nat (bits / 8) = 4 \/ Z.to_nat (bits / 8) = 8)%nat.
Proof.
  intros x bits Hcf T H. destruct (Hcf x (ins_self x)) as [_ _ _ _ K _ _]. specialize (K T).
  assert (B : bits = 0 \/ bits = 8 \/ bits = 16 \/ bits = 32 \/ bits = 64).
  { destruct (x_attr (lit "Size") x) eqn:ES; [right; exact (size_attr_text _ _ _ _ K ltac:(congruence) H)|].
    destruct H as [[_ ->]|(s & ES' & _)]; [auto|congruence]. }
  destruct B as [->|[->|[->|[->| ->]]]]; vm_compute; auto 10.
Qed.

Lemma decl_tel_sound : forall x t, conforms x -> decl_tel x = Ok t -> declares x t.
Proof.
  induction x as [s|ty a c IH] using xnode_ind_nested; intros t Hcf H; [discriminate|].
  rewrite decl_tel_unfold in H. cbv zeta in H. set (x := XElem ty a c) in *. assert (Ty : x_type x = ty) by reflexivity.
  assert (Hc := conforms_chars _ Hcf).
  nobind H. destruct H as (len & Hlen & H). apply decl_length_Ok in Hlen; auto.
  destruct (str_eqb ty (lit "BooleanParameter")) eqn:T1.
  { apply str_eqb_eq in T1. apply leaf_Ok in H. destruct H as (k & Hk & ->). nobind Hk. destruct Hk as (u & Hu & Hk). inversion Hk; subst k.
    apply no_child_Ok in Hu. eapply dc_param; [apply td_bool; congruence|exact Hlen|apply shape_of]. }
  destruct (str_eqb ty (lit "IntegerParameter")) eqn:T2.
  { apply str_eqb_eq in T2. apply leaf_Ok in H. destruct H as (k & Hk & ->). nobind Hk. destruct Hk as ((u & ads) & Hu & Hk). inversion Hk; subst k.
    eapply dc_param; [eapply (proj1 (decl_int_Ok x Hcf ltac:(congruence))); eauto|exact Hlen|apply shape_of]. }
  destruct (str_eqb ty (lit "EnumParameter")) eqn:T3.
  { apply str_eqb_eq in T3. apply leaf_Ok in H. destruct H as (k & Hk & ->). nobind Hk. destruct Hk as (u & Hu & Hk). inversion Hk; subst k.
    eapply dc_param; [apply decl_enum_Ok; eauto; congruence|exact Hlen|apply shape_of]. }
  destruct (str_eqb ty (lit "FixedPointParameter")) eqn:T4.
  { apply str_eqb_eq in T4. apply leaf_Ok in H. destruct H as (k & Hk & ->). nobind Hk. destruct Hk as (u & Hu & Hk). inversion Hk; subst k.
    eapply dc_param; [apply decl_fix_Ok; eauto; congruence|exact Hlen|apply shape_of]. }
  destruct (str_eqb ty (lit "FloatingPointParameter")) eqn:T5.
  { apply str_eqb_eq in T5. apply leaf_Ok in H. destruct H as (k & Hk & ->). nobind Hk. destruct Hk as (u & Hu & Hk). inversion Hk; subst k.
    eapply dc_param; [eapply (proj1 (decl_float_Ok x Hcf ltac:(congruence))); eauto|exact Hlen|apply shape_of]. }
  destruct (str_eqb ty (lit "StringParameter")) eqn:T6.
  { apply str_eqb_eq in T6. apply leaf_Ok in H. destruct H as (k & Hk & ->). nobind Hk. destruct Hk as (n & Hn & Hk). nobind Hk. destruct Hk as (u & Hu & Hk). inversion Hk; subst k.
    apply no_child_Ok in Hu. apply attr_size_Ok in Hn; auto. assert (R := size_range _ _ _ Hn).
    eapply dc_string; [congruence|auto|exact Hlen|rewrite Z2Nat.id by lia; auto]. }
  destruct (str_eqb ty (lit "BitParameterBlock")) eqn:T7.
  { apply str_eqb_eq in T7. nobind H. destruct H as (bits & Hb & H). nobind H. destruct H as (bs & Hbs & H). inversion H; subst t.
    apply attr_size_Ok in Hb; auto. destruct (block_bytes x bits Hcf ltac:(congruence) Hb) as [E8 B8].
    eapply dc_bits; [congruence|exact Hlen|rewrite <- E8; auto|].
    apply each_Ok in Hbs. eapply Forall2_iff; [|exact Hbs]. intros y nb Hin. symmetry. apply decl_bit_Ok; [lia|eapply conforms_child; eauto]. }
  destruct (str_eqb ty (lit "ParameterBlock")) eqn:T8.
  { apply str_eqb_eq in T8. nobind H. destruct H as (cs & Hcs & H). inversion H; subst t.
    apply dc_block; [congruence|auto|]. apply each_Ok in Hcs. rewrite Forall_forall in IH.
    assert (K : forall y, In y (x_elems x) -> In y c /\ conforms y) by (intros y Hy; split; [apply (x_elems_In ty a); auto|eapply conforms_child; eauto]).
    clear - Hcs IH K. induction Hcs; constructor.
    - apply IH; [apply K; simpl; auto|apply K; simpl; auto|auto].
    - apply IHHcs. intros; apply K; simpl; auto. }
  destruct (str_eqb ty (lit "Component")) eqn:T9.
  { apply str_eqb_eq in T9. destruct (x_elems x) eqn:EX; [|discriminate]. inversion H; subst t. apply dc_comp; auto. }
  destruct (not_here_not_Ok _ _ _ H).
Qed.

Lemma Forall2_each : forall A B (f : A -> outcome B) l, (forall x, In x l -> exists y, f x = Ok y) -> exists ys, each f l = Ok ys.
Proof.
  intros A B f l. induction l as [|x l IH]; simpl; [eauto|]. intros H. destruct (H x) as (y & E); auto. rewrite E. simpl.
  destruct IH as (ys & E'); [intros; apply H; auto|]. rewrite E'. simpl. eauto.
Qed.

Lemma decl_tel_complete : forall x, (exists ty a c, x = XElem ty a c) -> conforms x -> forall t, declares x t -> exists t', decl_tel x = Ok t'.
Proof.
  induction x as [s|ty a c IH] using xnode_ind_nested; intros (ty' & a' & c' & E) Hcf t H; [discriminate|]. clear ty' a' c' E.
  rewrite decl_tel_unfold. cbv zeta. set (x := XElem ty a c) in *. assert (Ty : x_type x = ty) by reflexivity.
  assert (Hc := conforms_chars _ Hcf).
  assert (HL : exists len, array_length x len) by (inversion H; eauto). destruct HL as (len & Hlen).
  apply decl_length_Ok in Hlen; auto. rewrite Hlen. cbn [obind].
  inversion H as [x' t' len' k TD AL SH Ex Et|x' n len' T NE AL MX Ex Et|x' bytes len' bits T AL SZ FB Ex Et|x' len' cs T AL FC Ex Et|x' len' T AL NE Ex Et]; subst x' t.
  - destruct TD as [E NE|sg bytes lo hi E Ha Hb Hsz Hs Hl Hh R|bytes ps E N Hsz Hp|bytes n m E Hu Hsz Hn Hm L|lo hi E Hu Hsz Hl Hh R];
      assert (E' := E); rewrite Ty in E'; rewrite E'; tags.
    + unfold no_child. rewrite NE. simpl. eauto.
    + destruct (proj2 (decl_int_Ok x Hcf E) (PInt sg bytes lo hi)) as (ads & K); [apply td_int; auto|]. rewrite K. simpl. eauto.
    + assert (K : decl_enum x = Ok (PEnum bytes ps)) by (apply decl_enum_Ok; auto; apply td_enum; auto). rewrite K. simpl. eauto.
    + assert (K : decl_fix x = Ok (PFix bytes n m)) by (apply decl_fix_Ok; auto; apply td_fix; auto). rewrite K. simpl. eauto.
    + destruct (proj2 (decl_float_Ok x Hcf E) (PFloat lo hi)) as (t' & K); [apply td_float; auto|]. rewrite K. simpl. eauto.
  - assert (E' := T); rewrite Ty in E'; rewrite E'; tags. apply attr_size_Ok in MX; auto. rewrite MX. cbn [obind]. unfold no_child. rewrite NE. simpl. eauto.
  - assert (E' := T); rewrite Ty in E'; rewrite E'; tags.
    destruct (block_bytes x _ Hcf T SZ) as [_ B8]. rewrite bytes_div in B8.
    apply attr_size_Ok in SZ; auto. rewrite SZ. cbn [obind]. rewrite bytes_div.
    assert (K : each (decl_bit bytes) (x_elems x) = Ok bits).
    { apply each_Ok. eapply Forall2_iff; [|exact FB]. intros y nb Hin. apply decl_bit_Ok; [lia|eapply conforms_child; eauto]. }
    rewrite K. simpl. eauto.
  - assert (E' := T); rewrite Ty in E'; rewrite E'; tags.
    destruct (Forall2_each _ _ decl_tel (x_elems x)) as (ys & K).
    { intros y Hy. rewrite Forall_forall in IH. destruct (Forall2_In_l _ _ _ _ _ _ FC Hy) as (t & _ & D).
      eapply (IH y); [apply (x_elems_In ty a); auto|eapply x_elems_XElem; eauto|eapply conforms_child; eauto|exact D]. }
    rewrite K. simpl. eauto.
  - assert (E' := T); rewrite Ty in E'; rewrite E'; tags. rewrite NE. eauto.
Qed.

(** ** One meaning *)

Lemma int_attr_one : forall sg b nm d x v v', int_attr sg b nm d x v -> int_attr sg b nm d x v' -> v = v'.
Proof.
  intros sg b nm d x v v' [[A B]|(s & A & B & _)] [[A' B']|(s' & A' & B' & _)]; try congruence.
  rewrite A in A'. injection A' as <-. eapply int_text_unique; eauto.
Qed.
Lemma bool_attr_one : forall nm d x v v', bool_attr nm d x v -> bool_attr nm d x v' -> v = v'.
Proof. intros nm d x v v' H H'. apply attr_bool_Ok in H, H'. congruence. Qed.
Lemma real_attr_one : forall prec emin mx nm d x v v', real_attr (round_fp prec emin) mx nm d x v -> real_attr (round_fp prec emin) mx nm d x v' -> (v == v')%Q.
Proof.
  intros prec emin mx nm d x v v' H H'. apply attr_real_complete in H, H'. destruct H as (w & E & Q), H' as (w' & E' & Q').
  rewrite E in E'. injection E' as <-. rewrite <- Q, <- Q'. reflexivity.
Qed.
Lemma nat_attr_one : forall sg b nm d x n n', int_attr sg b nm d x (Z.of_nat n) -> int_attr sg b nm d x (Z.of_nat n') -> n = n'.
Proof. intros. apply Nat2Z.inj. eapply int_attr_one; eauto. Qed.
Lemma bytes_attr_one : forall sg b nm d x n n', int_attr sg b nm d x (8 * Z.of_nat n) -> int_attr sg b nm d x (8 * Z.of_nat n') -> n = n'.
Proof. intros sg b nm d x n n' H H'. pose proof (int_attr_one _ _ _ _ _ _ _ H H'). lia. Qed.

Lemma Forall2_one : forall A B (R : A -> B -> Prop) l, (forall x y y', In x l -> R x y -> R x y' -> y = y') -> forall a b, Forall2 R l a -> Forall2 R l b -> a = b.
Proof.
  intros A B R l. induction l as [|x l IH]; intros H a b F G; inversion F; inversion G; subst; auto.
  f_equal; [eapply H; simpl; eauto|apply IH; auto]. intros; eapply H; simpl; eauto.
Qed.

Lemma pair_declared_one : forall x p p', pair_declared x p -> pair_declared x p' -> p = p'.
Proof.
  intros x [l n] [l' n'] (_ & _ & A & B) (_ & _ & A' & B'). cbn [fst snd] in *. f_equal; [congruence|eapply int_attr_one; eauto].
Qed.

Lemma type_declared_one : forall x t t', type_declared x t -> type_declared x t' -> same_ptype t t'.
Proof.
  intros x t t' H H'.
  destruct H as [T _|sg b lo hi T _ _ S G L U _|b ps T _ S P|b n m T _ S N M _|lo hi T _ _ L U _];
    destruct H' as [T' _|sg' b' lo' hi' T' _ _ S' G' L' U' _|b' ps' T' _ S' P'|b' n' m' T' _ S' N' M' _|lo' hi' T' _ _ L' U' _];
    try (rewrite T in T'; discriminate T'); unfold same_ptype; auto.
  - assert (b = b') by (eapply bytes_attr_one; eauto). subst b'. assert (sg = sg') by (eapply bool_attr_one; eauto). subst sg'.
    f_equal; eapply int_attr_one; eauto.
  - f_equal; [eapply bytes_attr_one; eauto|]. eapply Forall2_one; [|eauto|eauto]. intros y p p' _. apply pair_declared_one.
  - f_equal; [eapply bytes_attr_one; eauto|eapply nat_attr_one; eauto|eapply nat_attr_one; eauto].
  - split; eapply real_attr_one; eauto.
Qed.

Lemma bit_declared_one : forall b x nb nb', bit_declared b x nb -> bit_declared b x nb' -> nb = nb'.
Proof.
  intros b x [n t] [n' t'] (_ & _ & A & B & C & D & _ & _ & E & _) (_ & _ & A' & B' & C' & D' & _ & _ & E' & _). cbn [fst snd] in *.
  assert (HD : bt_size t = bt_size t') by (eapply int_attr_one; eauto). rewrite <- HD in E'.
  assert (HC : bt_pos t = bt_pos t') by (eapply int_attr_one; eauto).
  assert (HE : bt_max t = bt_max t') by (eapply int_attr_one; eauto).
  destruct t, t'. cbn -[Z.pow] in *. subst. reflexivity.
Qed.

Lemma shape_one : forall t t' len k k', same_ptype t t' -> shape t len k -> shape t' len k' -> same_kind k k'.
Proof. intros t t' len k k' H [[A ->]|[A ->]] [[B ->]|[B ->]]; try congruence; simpl; auto. Qed.

Lemma same_kind_refl : forall k, same_kind k k.
Proof. assert (R : forall t, same_ptype t t) by (intros []; simpl; auto; split; reflexivity). intros []; simpl; auto. Qed.

Lemma declares_one : forall x t t', (exists ty a c, x = XElem ty a c) -> declares x t -> declares x t' -> same_tel t t'.
Proof.
  induction x as [s|ty a c IH] using xnode_ind_nested; intros t t2 (ty' & a' & c' & E) H H2; [discriminate|]. clear ty' a' c' E. set (x := XElem ty a c) in *.
  inversion H as [x' t' len' k TD AL SH Ex Et|x' n len' T NE AL MX Ex Et|x' bytes len' bits T AL SZ FB Ex Et|x' len' cs T AL FC Ex Et|x' len' T AL NE Ex Et]; subst x' t;
  inversion H2 as [y' u' len2 k2 TD2 AL2 SH2 Ey Eu|y' n2 len2 T2 NE2 AL2 MX2 Ey Eu|y' bytes2 len2 bits2 T2 AL2 SZ2 FB2 Ey Eu|y' len2 cs2 T2 AL2 FC2 Ey Eu|y' len2 T2 AL2 NE2 Ey Eu]; subst y' t2;
  try (rewrite T in T2; discriminate T2);
  try (exfalso; destruct TD as [TT|? ? ? ? TT|? ? TT|? ? ? TT|? ? TT]; rewrite TT in T2; discriminate T2);
  try (exfalso; destruct TD2 as [TT|? ? ? ? TT|? ? TT|? ? ? TT|? ? TT]; rewrite TT in T; discriminate T).
  - constructor. assert (len' = len2) by (eapply nat_attr_one; eauto). subst len2. eapply shape_one; eauto. eapply type_declared_one; eauto.
  - assert (n = n2) by (eapply nat_attr_one; eauto). subst n2. constructor. apply same_kind_refl.
  - assert (bytes = bytes2) by (eapply bytes_attr_one; eauto). subst bytes2.
    assert (bits = bits2) by (eapply Forall2_one; [|eauto|eauto]; intros; eapply bit_declared_one; eauto). subst bits2. constructor.
  - assert (len' = len2) by (eapply nat_attr_one; eauto). subst len2. constructor. rewrite Forall_forall in IH.
    assert (K : forall y, In y (x_elems x) -> forall t t', declares y t -> declares y t' -> same_tel t t').
    { intros y Iy t t' Ht Ht'. apply (IH y (x_elems_In ty a c y Iy)); auto. eapply x_elems_XElem; eauto. }
    clear - FC FC2 K. revert cs2 FC2 K. induction FC as [|y t l l' H F IH]; intros cs2 G K; inversion G; subst; constructor.
    + eapply K; [left; reflexivity|auto|auto].
    + apply IH; auto. intros. eapply K; [right; eauto|eauto|eauto].
  - assert (len' = len2) by (eapply nat_attr_one; eauto). subst len2. constructor.
Qed.
