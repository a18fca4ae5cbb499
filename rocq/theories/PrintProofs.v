(** Proofs about the text of floating point values. *)
From Coq Require Import List Arith ZArith QArith Qround Qabs Qpower Bool Ascii String Lia Lqa Setoid.
From Verif Require Import Base BaseProofs TextModel TextSpec TextProofs RealModel RealSpec RealProofs ParamTypeModel
  ParamTypeSpec BlackboardModel BlackboardProofs IntProofs FixProofs FloatProofs.
Import ListNotations.
Open Scope Z_scope.

(** ** Powers of ten *)

Lemma pow10_opp : forall e, (pow10 e * pow10 (- e) == 1)%Q.
Proof. intros e. rewrite <- pow10_plus. rewrite Z.add_opp_diag_r. reflexivity. Qed.

Lemma pow10_mono : forall a b, a <= b -> (pow10 a <= pow10 b)%Q.
Proof.
  intros a b H. replace b with (a + (b - a)) by lia. rewrite pow10_plus. pose proof (pow10_pos a) as P.
  rewrite (pow10_Z (b - a)) by lia. assert (1 <= 10 ^ (b - a)) as L by (apply (Z.pow_le_mono_r 10 0); lia).
  apply (proj1 (inject_Z_le _ _)) in L. change (inject_Z 1) with 1%Q in L. nra.
Qed.

(** ** Digits *)

Lemma positional_zeros : forall l k, positional 10 (l ++ repeat 0 k) = positional 10 l * 10 ^ Z.of_nat k.
Proof.
  intros l k. induction k as [|k IH]; [rewrite app_nil_r; simpl; lia|].
  replace (repeat 0 (S k)) with (repeat 0 k ++ [0]) by (rewrite <- repeat_cons; reflexivity).
  rewrite app_assoc, positional_app. cbn [fold_left]. rewrite IH, Nat2Z.inj_succ, Z.pow_succ_r by lia. ring.
Qed.

Lemma dec_digits_bound : forall s ds, Forall2 dec_digit s ds -> 0 <= positional 10 ds < 10 ^ Z.of_nat (List.length ds).
Proof.
  intros s ds. revert s. induction ds as [|d ds IH] using rev_ind; intros s H; [unfold positional; simpl; lia|].
  apply Forall2_app_inv_r in H. destruct H as [s1 [s2 [H1 [H2 _]]]]. specialize (IH _ H1). inversion H2 as [|? ? ? ? [Hd _] _]; subst.
  rewrite positional_app. cbn [fold_left]. rewrite app_length, Nat2Z.inj_add. cbn [List.length]. change (Z.of_nat 1) with 1.
  rewrite Z.pow_add_r by lia. change (10 ^ 1) with 10. lia.
Qed.

Lemma drop0_spec : forall s ds, Forall2 dec_digit s ds -> exists k ds', Forall2 dec_digit (drop0 s) ds' /\ ds = repeat 0 k ++ ds'.
Proof.
  induction s as [|c s IH]; intros ds H; inversion H as [|? d ? ds0 Hd Ht]; subst; [exists 0%nat, []; split; constructor|]. cbn [drop0].
  destruct (char_eqb c "0"%char) eqn:E.
  - destruct (IH _ Ht) as [k [ds' [H1 ->]]]. exists (S k), ds'. split; auto. apply char_eqb_eq in E. subst c. destruct Hd as [_ Hd]. assert (bval "0"%char = 48) as E0 by reflexivity.
    simpl. f_equal. lia.
  - exists 0%nat, (d :: ds0). split; auto.
Qed.

Lemma Forall2_rev : forall A B (R : A -> B -> Prop) l1 l2, Forall2 R l1 l2 -> Forall2 R (rev l1) (rev l2).
Proof. intros A B R l1 l2 H. induction H; simpl; auto using Forall2_app. Qed.

Lemma Forall2_length : forall A B (R : A -> B -> Prop) l1 l2, Forall2 R l1 l2 -> List.length l1 = List.length l2.
Proof. intros A B R l1 l2 H. induction H; simpl; auto. Qed.

Lemma rev_zeros : forall k, rev (repeat 0 k) = repeat 0 k.
Proof. induction k as [|k IH]; simpl; auto. rewrite IH. rewrite <- repeat_cons. reflexivity. Qed.

Lemma strip_spec : forall s ds, Forall2 dec_digit s ds -> exists k ds', Forall2 dec_digit (strip_trailing0 s) ds' /\ ds = ds' ++ repeat 0 k.
Proof.
  intros s ds H. destruct (drop0_spec _ _ (Forall2_rev _ _ _ _ _ H)) as [k [ds' [H1 H2]]]. exists k, (rev ds'). split.
  - unfold strip_trailing0. apply Forall2_rev. auto.
  - rewrite <- (rev_involutive ds), H2, rev_app_distr, rev_zeros. auto.
Qed.

Lemma six_digits : forall m, 10 ^ 5 <= m < 10 ^ 6 -> exists ds, Forall2 dec_digit (print_base 10 m) ds /\ List.length ds = 6%nat /\ positional 10 ds = m.
Proof.
  intros m H. destruct (print_base_dec m) as [ds [H1 [H2 H3]]]; [lia|]. exists ds. split; auto. split; auto.
  pose proof (print_base_length 10 m 6 ltac:(lia) ltac:(lia) ltac:(lia)) as L. rewrite (Forall2_length _ _ _ _ _ H1) in L.
  pose proof (dec_digits_bound _ _ H1) as B. rewrite H3 in B. destruct (Nat.eq_dec (List.length ds) 6) as [|N]; auto.
  exfalso. assert (10 ^ Z.of_nat (List.length ds) <= 10 ^ 5) by (apply Z.pow_le_mono_r; lia). lia.
Qed.

(** ** Six significant digits *)

(** The estimate of the decimal exponent is right to one step, for the exponents of a float. *)
Definition exponent_near (l : Z) : bool :=
  let x := l * 30103 / 100000 in Qle_bool (pow10 (x - 1)) (pow2 l) && Qle_bool (pow2 (l + 1)) (pow10 (x + 2)).

Lemma exponents_near : forall l, -149 <= l <= 127 -> exponent_near l = true.
Proof.
  assert (forallb exponent_near (map (fun i => Z.of_nat i - 149) (seq 0 277)) = true) as H by (vm_compute; reflexivity).
  intros l Hl. rewrite forallb_forall in H. apply H. apply in_map_iff. exists (Z.to_nat (l + 149)). split; [lia|]. apply in_seq. lia.
Qed.

Lemma sig_digits_spec : forall q m x, (pow2 (-149) <= q)%Q -> (q < pow2 128)%Q -> sig_digits 6 q = (m, x) ->
  10 ^ 5 <= m < 10 ^ 6 /\ nearest_decimal 6 q (inject_Z m * pow10 (x - 5)) /\ -50 < x < 50.
Proof.
  intros q m x L U H. unfold sig_digits in H.
  assert (0 < q)%Q as Pq by (eapply Qlt_le_trans; [apply (pow2_pos (-149))|auto]).
  destruct (qlog2_spec q Pq) as [Q1 Q2].
  assert (-149 <= qlog2 q <= 127) as R.
  { split; [assert (-149 < qlog2 q + 1) by (apply pow2_lt_inv; eapply Qle_lt_trans; eauto); lia|].
    assert (qlog2 q < 128) by (apply pow2_lt_inv; eapply Qle_lt_trans; eauto). lia. }
  pose proof (exponents_near _ R) as N. unfold exponent_near in N. apply andb_true_iff in N. destruct N as [N1 N2]. apply Qle_bool_iff in N1, N2.
  set (x0 := qlog2 q * 30103 / 100000) in *.
  assert (-46 <= x0 <= 39) as Rx by (unfold x0; pose proof (Z.div_le_mono (-149 * 30103) (qlog2 q * 30103) 100000 ltac:(lia) ltac:(lia)) as D1;
    pose proof (Z.div_le_mono (qlog2 q * 30103) (127 * 30103) 100000 ltac:(lia) ltac:(lia)) as D2; change (-149 * 30103 / 100000) with (-45) in D1;
    change (127 * 30103 / 100000) with 38 in D2; lia).
  set (x1 := if Qle_bool (pow10 (x0 + 1)) q then x0 + 1 else if Qle_bool (pow10 x0) q then x0 else x0 - 1) in *.
  assert ((pow10 x1 <= q)%Q /\ (q < pow10 (x1 + 1))%Q /\ -47 <= x1 <= 40) as [X1 [X2 X3]].
  { unfold x1. destruct (Qle_bool (pow10 (x0 + 1)) q) eqn:E1; [apply Qle_bool_iff in E1; split; auto; split; [|lia]; replace (x0 + 1 + 1) with (x0 + 2) by lia; lra|].
    assert (q < pow10 (x0 + 1))%Q as E1' by (apply Qnot_le_lt; intros C; apply Qle_bool_iff in C; congruence).
    destruct (Qle_bool (pow10 x0) q) eqn:E2; [apply Qle_bool_iff in E2; split; auto; split; auto; lia|].
    assert (q < pow10 x0)%Q as E2' by (apply Qnot_le_lt; intros C; apply Qle_bool_iff in C; congruence).
    split; [lra|]. split; [|lia]. replace (x0 - 1 + 1) with x0 by lia. auto. }
  change (6 - 1 - x1) with (5 - x1) in H. set (t := (q * pow10 (5 - x1))%Q) in *.
  assert (inject_Z (10 ^ 5) <= t)%Q as T1.
  { unfold t. rewrite <- pow10_Z by lia. replace 5 with (x1 + (5 - x1)) at 1 by lia. rewrite pow10_plus. apply Qmult_le_r; [apply pow10_pos|auto]. }
  assert (t < inject_Z (10 ^ 6))%Q as T2.
  { unfold t. rewrite <- pow10_Z by lia. replace 6 with (x1 + 1 + (5 - x1)) at 1 by lia. rewrite pow10_plus. apply Qmult_lt_r; [apply pow10_pos|auto]. }
  pose proof (round_even_bounds t (10 ^ 5) (10 ^ 6) (conj T1 (Qlt_le_weak _ _ T2))) as B.
  assert (10 ^ 5 <= m < 10 ^ 6 /\ (inject_Z m * pow10 (x - 5) == inject_Z (round_even t) * pow10 (x1 - 5))%Q /\ -50 < x < 50) as [M1 [M2 M3]].
  { destruct (Z.eqb_spec (round_even t) (10 ^ 6)) as [E|E]; injection H as <- <-.
    - rewrite E. change (10 ^ 6 / 10) with (10 ^ 5). split; [lia|]. split; [|lia]. replace (x1 + 1 - 5) with (1 + (x1 - 5)) by lia. rewrite pow10_plus.
      change (inject_Z (10 ^ 6)) with (inject_Z (10 ^ 5 * 10)). rewrite inject_Z_mult. change (pow10 1) with (10 # 1). change (inject_Z 10) with (10 # 1). ring.
    - split; [lia|]. split; [reflexivity|lia]. }
  split; auto. split; auto. split.
  - exists m, (x - 5). split; [reflexivity|]. rewrite Z.abs_eq by lia. lia.
  - intros r' [k [e [Hr Hk]]]. change (Qpower 10 e) with (pow10 e) in Hr. rewrite M2.
    assert (forall p, (Qabs (p * pow10 (x1 - 5) - q) == Qabs (p - t) * pow10 (x1 - 5))%Q) as Sc.
    { intros p. rewrite <- (Qabs_pos (pow10 (x1 - 5))) at 2 by (apply Qlt_le_weak, pow10_pos). rewrite <- Qabs_Qmult.
      assert ((p - t) * pow10 (x1 - 5) == p * pow10 (x1 - 5) - q)%Q as ->; [|reflexivity]. unfold t.
      assert (pow10 (5 - x1) * pow10 (x1 - 5) == 1)%Q as O by (rewrite <- pow10_plus; replace (5 - x1 + (x1 - 5)) with 0 by lia; reflexivity).
      setoid_replace ((p - q * pow10 (5 - x1)) * pow10 (x1 - 5))%Q with (p * pow10 (x1 - 5) - q * (pow10 (5 - x1) * pow10 (x1 - 5)))%Q by ring. rewrite O. ring. }
    destruct (Z.le_gt_cases (x1 - 5) e) as [Hx|Hx].
    + assert (r' == inject_Z (k * 10 ^ (e - (x1 - 5))) * pow10 (x1 - 5))%Q as Er.
      { rewrite Hr, inject_Z_mult, <- pow10_Z by lia. replace e with ((e - (x1 - 5)) + (x1 - 5)) at 1 by lia. rewrite pow10_plus. ring. }
      rewrite Er, !Sc. apply Qmult_le_r; [apply pow10_pos|]. apply round_even_nearest.
    + assert (r' <= pow10 x1)%Q as Ur.
      { rewrite Hr. apply Qle_trans with (pow10 6 * pow10 e)%Q.
        - apply Qmult_le_r; [apply pow10_pos|]. rewrite pow10_Z by lia. apply (proj1 (inject_Z_le _ _)). lia.
        - rewrite <- pow10_plus. apply pow10_mono. lia. }
      apply Qle_trans with (Qabs (inject_Z (10 ^ 5) * pow10 (x1 - 5) - q)).
      * rewrite !Sc. apply Qmult_le_r; [apply pow10_pos|]. apply round_even_nearest.
      * assert (inject_Z (10 ^ 5) * pow10 (x1 - 5) == pow10 x1)%Q as -> by (rewrite <- pow10_Z by lia; rewrite <- pow10_plus; replace (5 + (x1 - 5)) with x1 by lia; reflexivity).
        rewrite (Qabs_neg (pow10 x1 - q)), (Qabs_neg (r' - q)) by lra. lra.
Qed.

(** ** The text *)

Definition unsigned_text (s : str) (q : Q) : Prop :=
  exists s1 ds1 frac s2 ds2 ex e, s = s1 ++ frac ++ ex
    /\ Forall2 dec_digit s1 ds1 /\ Forall2 dec_digit s2 ds2
    /\ (frac = "."%char :: s2 \/ (frac = [] /\ s2 = []))
    /\ ds1 ++ ds2 <> [] /\ exponent_text ex e
    /\ (q == inject_Z (positional 10 (ds1 ++ ds2)) * Qpower 10 (e - Z.of_nat (List.length ds2)))%Q.

Lemma unsigned_real : forall (neg : bool) s q, unsigned_text s q -> real_text neg ((if neg then ["-"%char] else []) ++ s) q.
Proof.
  intros neg s q [s1 [ds1 [frac [s2 [ds2 [ex [e [H1 H]]]]]]]]. exists (if neg then ["-"%char] else []), s1, ds1, frac, s2, ds2, ex, e.
  split; [rewrite H1; auto|]. split; [destruct neg; simpl; auto|]. exact H.
Qed.

Lemma fraction : forall f ds, Forall2 dec_digit f ds -> let frac := match f with [] => [] | _ => "."%char :: f end in frac = "."%char :: f \/ (frac = [] /\ f = []).
Proof. intros [|c f] ds H; cbv zeta; auto. Qed.

Lemma print_g6_text : forall q, (pow2 (-149) <= q)%Q -> (q < pow2 128)%Q -> exists r, unsigned_text (print_g6_pos q) r /\ nearest_decimal 6 q r.
Proof.
  intros q L U. unfold print_g6_pos. destruct (sig_digits 6 q) as [m x] eqn:E. destruct (sig_digits_spec q m x L U E) as [M [N X]]. exists (inject_Z m * pow10 (x - 5))%Q. split; auto.
  destruct (six_digits m M) as [ds [D1 [D2 D3]]]. set (s := print_base 10 m) in *. clearbody s.
  assert (forall l k e, ds = l ++ repeat 0 k -> e = x - 5 + Z.of_nat k -> (inject_Z m * pow10 (x - 5) == inject_Z (positional 10 l) * Qpower 10 e)%Q) as V.
  { intros l k e El Ee. change (Qpower 10 e) with (pow10 e). rewrite <- D3, El, positional_zeros, Ee, inject_Z_mult, pow10_plus, (pow10_Z (Z.of_nat k)) by lia. ring. }
  assert (forall i, exists f g k, firstn i s ++ strip_trailing0 (skipn i s) = firstn i s ++ strip_trailing0 (skipn i s) /\ Forall2 dec_digit (firstn i s) f
    /\ Forall2 dec_digit (strip_trailing0 (skipn i s)) g /\ ds = (f ++ g) ++ repeat 0 k /\ List.length f = Nat.min i 6) as Sp.
  { intros i. pose proof D1 as D. rewrite <- (firstn_skipn i s) in D. apply Forall2_app_inv_l in D. destruct D as [f [h [F1 [F2 F3]]]]. destruct (strip_spec _ _ F2) as [k [g [G1 G2]]].
    exists f, g, k. split; auto. split; auto. split; auto. split; [rewrite F3, G2, app_assoc; auto|].
    rewrite <- (Forall2_length _ _ _ _ _ F1), firstn_length, (Forall2_length _ _ _ _ _ D1), D2. auto. }
  assert (forall i, (0 < i <= 6)%nat -> forall f g k, Forall2 dec_digit (firstn i s) f -> ds = (f ++ g) ++ repeat 0 k -> List.length f = i -> f ++ g <> []) as Ne by (intros i Hi f g k _ _ Lf C; apply app_eq_nil in C; destruct C; subst f; simpl in Lf; lia).
  destruct ((x <? -4) || (6 <=? x)) eqn:C.
  - destruct (Sp 1%nat) as [f [g [k [_ [F [G [Ed Lf]]]]]]]. change (Nat.min 1 6) with 1%nat in Lf.
    assert (exponent_text ("e"%char :: (if x <? 0 then "-"%char else "+"%char) :: pad0 2 (print_base 10 (Z.abs x))) x) as Ex.
    { right. destruct (pad0_dec 2 (Z.abs x) ltac:(lia) ltac:(change (10 ^ Z.of_nat 2) with 100; lia)) as [es [P1 [P2 P3]]].
      exists "e"%char, [if x <? 0 then "-"%char else "+"%char], (x <? 0), (pad0 2 (print_base 10 (Z.abs x))), es. split; auto. split; auto.
      split; [destruct (x <? 0); simpl; auto|]. split; auto. split; [intros ->; discriminate|]. rewrite P3. destruct (Z.ltb_spec x 0); lia. }
    eexists (firstn 1 s), f, _, (strip_trailing0 (skipn 1 s)), g, _, x. split; [reflexivity|]. split; auto. split; auto. split; [apply (fraction _ _ G)|].
    split; [apply (Ne 1%nat ltac:(lia) f g k); auto|]. split; [exact Ex|]. apply (V (f ++ g) k); auto.
    pose proof (f_equal (@List.length Z) Ed) as Ll. rewrite !app_length, repeat_length, D2, Lf in Ll. lia.
  - apply orb_false_iff in C. destruct C as [C1 C2]. apply Z.ltb_ge in C1. apply Z.leb_gt in C2. destruct (Z.ltb_spec x 0) as [Hx|Hx].
    + destruct (strip_spec _ _ D1) as [k [g [G Eg]]]. exists ["0"%char], [0], ("."%char :: repeat "0"%char (Z.to_nat (- x - 1)) ++ strip_trailing0 s), (repeat "0"%char (Z.to_nat (- x - 1)) ++ strip_trailing0 s),
        (repeat 0 (Z.to_nat (- x - 1)) ++ g), [], 0. split; [rewrite app_nil_r; reflexivity|]. split; [repeat constructor; cbn; lia|].
      split; [apply Forall2_app; auto; apply Forall2_good10; apply Forall2_repeat0; lia|]. split; auto. split; [discriminate|]. split; [left; auto|].
      change ([0] ++ repeat 0 (Z.to_nat (- x - 1)) ++ g) with (repeat 0 (S (Z.to_nat (- x - 1))) ++ g). rewrite positional_leading_zeros. apply (V g k); auto.
      pose proof (f_equal (@List.length Z) Eg) as Ll. rewrite !app_length, repeat_length, D2 in Ll. rewrite app_length, repeat_length. lia.
    + destruct (Sp (Z.to_nat (x + 1))) as [f [g [k [_ [F [G [Ed Lf]]]]]]]. rewrite Nat.min_l in Lf by lia.
      eexists (firstn (Z.to_nat (x + 1)) s), f, _, (strip_trailing0 (skipn (Z.to_nat (x + 1)) s)), g, [], 0. split; [rewrite app_nil_r; reflexivity|]. split; auto. split; auto. split; [apply (fraction _ _ G)|].
      split; [apply (Ne (Z.to_nat (x + 1)) ltac:(lia) f g k); auto|]. split; [left; auto|]. apply (V (f ++ g) k); auto.
      pose proof (f_equal (@List.length Z) Ed) as Ll. rewrite !app_length, repeat_length, D2, Lf in Ll. lia.
Qed.

Lemma f32_mag_range : forall u, 0 <= u < 2 ^ 32 -> f32_finite u = true -> (f32_mag u == 0 \/ (pow2 (-149) <= f32_mag u /\ f32_mag u < pow2 128))%Q.
Proof.
  intros u Hu F. destruct (f32_word_of u Hu) as [_ [He Hm]]. apply f32_finite_spec in F.
  assert (f32_mag u < pow2 128)%Q as U.
  { rewrite f32_mag_of. eapply Qle_lt_trans; [apply mag_bound; lia|]. vm_compute. reflexivity. }
  unfold f32_mag in *. destruct (Z.eqb_spec (f32_exp u) 0) as [E|E].
  - destruct (Z.eq_dec (f32_mant u) 0) as [->|N]; [left; reflexivity|]. right. split; auto. rewrite <- (Qmult_1_l (pow2 (-149))) at 1. apply Qmult_le_r; [apply pow2_pos|]. apply (proj1 (inject_Z_le 1 _)). lia.
  - right. split; auto. apply Qle_trans with (pow2 (f32_exp u - 150)); [apply pow2_mono; lia|]. rewrite <- (Qmult_1_l (pow2 (f32_exp u - 150))) at 1. apply Qmult_le_r; [apply pow2_pos|]. apply (proj1 (inject_Z_le 1 _)). lia.
Qed.

Lemma print_f32_text : forall u, 0 <= u < 2 ^ 32 -> f32_finite u = true -> exists r, real_text (f32_sign u) (print_f32 u) r /\ nearest_decimal 6 (f32_mag u) r.
Proof.
  intros u Hu F. unfold print_f32. rewrite F. unfold print_g6. destruct (f32_mag_range u Hu F) as [Z|[R1 R2]].
  - exists 0%Q. rewrite (proj2 (Qeq_bool_iff _ _) Z). split.
    + apply unsigned_real. exists ["0"%char], [0], [], [], [], [], 0. split; auto. split; [repeat constructor; cbn; lia|]. split; auto. split; auto. split; [discriminate|]. split; [left; auto|]. reflexivity.
    + split; [exists 0, 0; split; [reflexivity|cbn; lia]|]. intros r' _. rewrite Z. apply Qabs_nonneg.
  - assert (0 < f32_mag u)%Q as P by (eapply Qlt_le_trans; [apply (pow2_pos (-149))|auto]).
    assert (Qeq_bool (f32_mag u) 0 = false) as -> by (destruct (Qeq_bool (f32_mag u) 0) eqn:E; auto; apply Qeq_bool_iff in E; lra).
    rewrite (proj2 (Qle_bool_iff _ _) (Qlt_le_weak _ _ P)). destruct (print_g6_text _ R1 R2) as [r [T N]]. exists r. split; auto. apply unsigned_real. auto.
Qed.
