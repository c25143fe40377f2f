(** Proofs about the similarity ratios. *)
From Coq Require Import Reals Lra Permutation.
From Verif Require Import Base DiffModel DiffSpec DiffProofs DiffBlockProofs DiffTextProofs JsonFloatModel JsonFloatProofs DiffRatioModel DiffRatioSpec.
From Flocq Require Import Core IEEE754.Binary IEEE754.Bits.
Open Scope Z_scope.
Open Scope list_scope.

(** * Floats *)

Local Notation fexp := (FLT_exp (3 - 1024 - 53) 53).
Local Instance Vexp : Valid_exp fexp.
Proof. apply FLT_exp_valid. reflexivity. Qed.

Lemma nearest_le : forall x y, (x <= y)%R -> (nearest x <= nearest y)%R.
Proof. intros x y H. apply round_le; auto with typeclass_instances. Qed.
Lemma nearest_fix : forall x, generic_format radix2 fexp x -> nearest x = x.
Proof. intros x H. apply round_generic; auto with typeclass_instances. Qed.
Lemma nearest_int : forall n, Z.abs n <= 2 ^ 53 -> nearest (IZR n) = IZR n.
Proof.
  intros n H. apply nearest_fix. destruct (Z.eq_dec (Z.abs n) (2 ^ 53)) as [E|E].
  - assert (IZR n = bpow radix2 53 \/ IZR n = - bpow radix2 53)%R as [->| ->].
    { change (bpow radix2 53) with (IZR (2 ^ 53)). destruct (Z.abs_spec n) as [[_ A]|[_ A]]; [left; f_equal; lia|right; rewrite <- opp_IZR; f_equal; lia]. }
    + apply generic_format_bpow. unfold FLT_exp. lia.
    + apply generic_format_opp, generic_format_bpow. unfold FLT_exp. lia.
  - apply generic_format_FLT. exists (Float radix2 n 0); [unfold F2R; cbn; lra|cbn [Fnum]; change (radix2 : Z) with 2; lia|cbn [Fexp]; lia].
Qed.
Lemma nearest_0 : nearest 0 = 0%R.
Proof. apply (nearest_int 0). lia. Qed.
Lemma nearest_1 : nearest 1 = 1%R.
Proof. apply (nearest_int 1). lia. Qed.

(** Twice the nearest is the nearest of the double, for numbers that are not tiny *)
Lemma nearest_double : forall x, (1 <= x)%R -> nearest (2 * x) = (2 * nearest x)%R.
Proof.
  intros x H. unfold nearest, round, scaled_mantissa, cexp. replace (2 * x)%R with (x * bpow radix2 1)%R by (cbn; lra).
  assert (M : mag radix2 (x * bpow radix2 1) = mag radix2 x + 1 :> Z) by (apply mag_mult_bpow; lra).
  assert (P : 1 <= mag radix2 x).
  { apply mag_ge_bpow. cbn. rewrite Rabs_pos_eq; lra. }
  assert (E : fexp (mag radix2 (x * bpow radix2 1)) = fexp (mag radix2 x) + 1) by (rewrite M; unfold FLT_exp; lia).
  rewrite E. replace (x * bpow radix2 1 * bpow radix2 (- (fexp (mag radix2 x) + 1)))%R with (x * bpow radix2 (- fexp (mag radix2 x)))%R.
  - unfold F2R. cbn [Fnum Fexp]. rewrite bpow_plus. change (bpow radix2 1) with 2%R. ring.
  - rewrite Rmult_assoc, <- bpow_plus. f_equal. f_equal. lia.
Qed.

Lemma nearest_bpow : forall x e, (-1074 <= e)%Z -> (Rabs x <= bpow radix2 e)%R -> (Rabs (nearest x) <= bpow radix2 e)%R.
Proof. intros x e He H. apply abs_round_le_generic; auto with typeclass_instances. apply generic_format_bpow. unfold FLT_exp. lia. Qed.
Lemma below : forall y e, (e < 1024)%Z -> (Rabs y <= bpow radix2 e)%R -> Rlt_bool (Rabs y) (bpow radix2 1024) = true.
Proof. intros y e He H. apply Rlt_bool_true. eapply Rle_lt_trans; [exact H|]. now apply bpow_lt. Qed.

Lemma f64_int : forall n, 0 <= n <= 2 ^ 64 -> value (f64 n 0) = nearest (IZR n) /\ is_finite 53 1024 (f64 n 0) = true.
Proof.
  intros n H. pose proof (binary_normalize_correct 53 1024 (eq_refl _) (eq_refl _) mode_NE n 0 false) as B.
  replace (F2R (Float radix2 n 0)) with (IZR n) in B by (unfold F2R; cbn; lra).
  change (BinarySingleNaN.round_mode mode_NE) with ZnearestE in B.
  rewrite below with (e := 64) in B; [|lia|].
  - destruct B as (B1 & B2 & _). split; [exact B1|exact B2].
  - apply nearest_bpow; [lia|]. change (bpow radix2 64) with (IZR (2 ^ 64)). rewrite Rabs_pos_eq by (apply IZR_le; lia). apply IZR_le. lia.
Qed.

(** The quotient of the roundings *)
Definition quotient (m len : Z) : R := (2 * nearest (IZR m) / nearest (IZR len))%R.
Lemma nearest_nonneg : forall n, 0 <= n -> (0 <= nearest (IZR n))%R.
Proof. intros n H. rewrite <- nearest_0. apply nearest_le. now apply IZR_le. Qed.
Lemma nearest_pos : forall n, 1 <= n -> (1 <= nearest (IZR n))%R.
Proof. intros n H. rewrite <- nearest_1. apply nearest_le. now apply IZR_le. Qed.
Lemma twice_le : forall m len, 0 <= m -> 2 * m <= len -> (2 * nearest (IZR m) <= nearest (IZR len))%R.
Proof.
  intros m len H1 H2. destruct (Z.eq_dec m 0) as [->|N].
  - rewrite nearest_0. pose proof (nearest_nonneg len ltac:(lia)). lra.
  - rewrite <- nearest_double by (apply IZR_le; lia). apply nearest_le. rewrite <- mult_IZR. now apply IZR_le.
Qed.
Lemma quotient_bounds : forall m len, 0 <= m -> 2 * m <= len -> 0 < len -> (0 <= quotient m len <= 1)%R.
Proof.
  intros m len H1 H2 H3. pose proof (nearest_nonneg m H1). pose proof (nearest_pos len ltac:(lia)). pose proof (twice_le m len H1 H2). unfold quotient. split.
  - apply Rmult_le_pos; [lra|]. apply Rlt_le, Rinv_0_lt_compat. lra.
  - apply Rmult_le_reg_r with (nearest (IZR len)); [lra|]. unfold Rdiv. rewrite Rmult_assoc, Rinv_l by lra. lra.
Qed.
Lemma calculateRatio_ok : forall m len, 0 <= m -> 2 * m <= len -> len < 2 ^ 63 ->
  is_finite 53 1024 (calculateRatio m len) = true /\ value (calculateRatio m len) = if len =? 0 then 1%R else nearest (quotient m len).
Proof.
  intros m len H1 H2 H3. unfold calculateRatio. destruct (Z.ltb_spec 0 len) as [L|L].
  2:{ replace (len =? 0) with true by lia. destruct (f64_int 1 ltac:(lia)) as [A B]. split; [exact B|]. rewrite A. apply nearest_1. }
  replace (len =? 0) with false by lia.
  destruct (f64_int 2 ltac:(lia)) as [A2 F2]. rewrite (nearest_int 2) in A2 by lia. destruct (f64_int m ltac:(lia)) as [Am Fm]. destruct (f64_int len ltac:(lia)) as [Al Fl].
  assert (Nm : nearest (2 * nearest (IZR m)) = (2 * nearest (IZR m))%R).
  { destruct (Z.eq_dec m 0) as [->|N]; [rewrite nearest_0, Rmult_0_r; apply nearest_0|].
    rewrite nearest_double by (apply nearest_pos; lia). f_equal. apply nearest_fix. apply generic_format_round; auto with typeclass_instances. }
  pose proof (nearest_nonneg m H1) as Pm. pose proof (nearest_pos len ltac:(lia)) as Pl. pose proof (twice_le m len H1 H2) as T.
  assert (Bl : (nearest (IZR len) <= bpow radix2 64)%R).
  { rewrite <- (Rabs_pos_eq (nearest (IZR len))) by lra. apply nearest_bpow; [lia|]. change (bpow radix2 64) with (IZR (2 ^ 64)).
    rewrite Rabs_pos_eq by (apply IZR_le; lia). apply IZR_le. lia. }
  pose proof (Bmult_correct 53 1024 (eq_refl _) (eq_refl _) binop_nan_pl64 mode_NE (f64 2 0) (f64 m 0)) as BM.
  change (BinarySingleNaN.round_mode mode_NE) with ZnearestE in BM. fold (value (f64 2 0)) (value (f64 m 0)) in BM. rewrite A2, Am in BM.
  change (round radix2 (SpecFloat.fexp 53 1024) ZnearestE (2 * nearest (IZR m))) with (nearest (2 * nearest (IZR m))) in BM. rewrite Nm in BM. rewrite below with (e := 64) in BM; [|lia|rewrite Rabs_pos_eq; lra].
  destruct BM as (BM1 & BM2 & _). rewrite F2, Fm in BM2. cbn [andb] in BM2.
  change (Bmult 53 1024 eq_refl eq_refl binop_nan_pl64 mode_NE (f64 2 0) (f64 m 0)) with (b64_mult mode_NE (f64 2 0) (f64 m 0)) in *.
  set (p := b64_mult mode_NE (f64 2 0) (f64 m 0)) in *.
  pose proof (Bdiv_correct 53 1024 (eq_refl _) (eq_refl _) binop_nan_pl64 mode_NE p (f64 len 0)) as BD.
  fold (value (f64 len 0)) in BD. rewrite Al, BM1 in BD. specialize (BD ltac:(lra)). change (BinarySingleNaN.round_mode mode_NE) with ZnearestE in BD.
  change (round radix2 (SpecFloat.fexp 53 1024) ZnearestE (2 * nearest (IZR m) / nearest (IZR len))) with (nearest (quotient m len)) in BD.
  pose proof (quotient_bounds m len H1 H2 L) as Q.
  rewrite below with (e := 0) in BD; [|lia|apply nearest_bpow; [lia|cbn; rewrite Rabs_pos_eq; lra]].
  destruct BD as (BD1 & BD2 & _). rewrite BM2 in BD2.
  split; [exact BD2|exact BD1].
Qed.

Lemma le64_ok : forall x y, is_finite 53 1024 x = true -> is_finite 53 1024 y = true -> (le64 x y = true <-> (value x <= value y)%R).
Proof.
  intros x y Fx Fy. unfold le64, b64_compare. rewrite Bcompare_correct by assumption. unfold value.
  destruct (Rcompare_spec (B2R 53 1024 x) (B2R 53 1024 y)); split; intros; try reflexivity; try discriminate; lra.
Qed.

Lemma ratio_mono : forall m m' len, 0 <= m <= m' -> 2 * m' <= len -> len < 2 ^ 63 -> le64 (calculateRatio m len) (calculateRatio m' len) = true.
Proof.
  intros m m' len H1 H2 H3. destruct (calculateRatio_ok m len ltac:(lia) ltac:(lia) H3) as [F E]. destruct (calculateRatio_ok m' len ltac:(lia) H2 H3) as [F' E'].
  apply le64_ok; [exact F|exact F'|]. rewrite E, E'. destruct (Z.eqb_spec len 0); [lra|]. apply nearest_le. unfold quotient.
  pose proof (nearest_pos len ltac:(lia)). apply Rmult_le_compat_r; [apply Rlt_le, Rinv_0_lt_compat; lra|].
  apply Rmult_le_compat_l; [lra|]. apply nearest_le. apply IZR_le. lia.
Qed.
Lemma ratio_range : forall m len, 0 <= m -> 2 * m <= len -> len < 2 ^ 63 ->
  le64 (f64 0 0) (calculateRatio m len) = true /\ le64 (calculateRatio m len) (f64 1 0) = true.
Proof.
  intros m len H1 H2 H3. destruct (calculateRatio_ok m len H1 H2 H3) as [F E]. destruct (f64_int 0 ltac:(lia)) as [A0 F0]. destruct (f64_int 1 ltac:(lia)) as [A1 F1].
  rewrite nearest_0 in A0. rewrite nearest_1 in A1. rewrite !le64_ok by assumption. rewrite A0, A1, E. destruct (Z.eqb_spec len 0); [split; lra|].
  destruct (quotient_bounds m len H1 H2 ltac:(lia)) as [Q1 Q2]. split.
  - rewrite <- nearest_0. now apply nearest_le.
  - rewrite <- nearest_1. now apply nearest_le.
Qed.
Lemma ratio_measures : forall m la lb, 0 <= m -> 0 <= la -> 0 <= lb -> 2 * m <= la + lb -> la + lb <= 2 ^ 53 -> measures (calculateRatio m (la + lb)) m la lb.
Proof.
  intros m la lb H1 Ha Hb H2 H3. destruct (calculateRatio_ok m (la + lb) H1 H2 ltac:(lia)) as [F E]. split; [exact F|]. rewrite E.
  destruct (la + lb =? 0); [reflexivity|]. f_equal. unfold quotient. rewrite !nearest_int by lia. rewrite mult_IZR. reflexivity.
Qed.
(** Equal to 1 only if all lines match *)
Lemma ratio_one : forall m len, 0 <= m -> 2 * m <= len -> len < 2 ^ 53 -> (value (calculateRatio m len) = 1%R <-> 2 * m = len).
Proof.
  intros m len H1 H2 H3. destruct (calculateRatio_ok m len H1 H2 ltac:(lia)) as [_ ->]. destruct (Z.eqb_spec len 0) as [->|N]; [split; [lia|reflexivity]|].
  unfold quotient. rewrite !nearest_int by lia. assert (0 < IZR len)%R by (apply IZR_lt; lia). split; intro E.
  - destruct (Z.eq_dec (2 * m) len) as [|D]; [assumption|exfalso]. set (q := (2 * IZR m / IZR len)%R) in *.
    assert (Q : (q <= 1 - / bpow radix2 53)%R).
    { unfold q. apply Rmult_le_reg_r with (IZR len); [lra|]. unfold Rdiv. rewrite Rmult_assoc, Rinv_l by lra. rewrite Rmult_1_r, Rmult_minus_distr_r, Rmult_1_l.
      assert (2 * IZR m <= IZR len - 1)%R by (rewrite <- mult_IZR, <- minus_IZR; apply IZR_le; lia).
      assert (/ bpow radix2 53 * IZR len <= 1)%R.
      { apply Rmult_le_reg_l with (bpow radix2 53); [apply bpow_gt_0|]. rewrite <- Rmult_assoc, Rinv_r by (apply Rgt_not_eq, bpow_gt_0).
        rewrite Rmult_1_l, Rmult_1_r. change (bpow radix2 53) with (IZR (2 ^ 53)). apply IZR_le. lia. }
      lra. }
    assert (G : generic_format radix2 fexp (1 - / bpow radix2 53)).
    { apply generic_format_FLT. exists (Float radix2 (2 ^ 53 - 1) (-53)); [|cbn [Fnum]; change (radix2 : Z) with 2; lia|cbn [Fexp]; lia].
      unfold F2R. cbn [Fnum Fexp]. rewrite minus_IZR, Rmult_minus_distr_r, Rmult_1_l. change (IZR (2 ^ 53)) with (bpow radix2 53). rewrite <- bpow_plus.
      change (bpow radix2 (-53)) with (/ bpow radix2 53)%R. reflexivity. }
    apply nearest_le in Q. rewrite E, (nearest_fix _ G) in Q. pose proof (Rinv_0_lt_compat _ (bpow_gt_0 radix2 53)). lra.
  - rewrite <- E, mult_IZR. rewrite <- (nearest_1). f_equal. unfold Rdiv. apply Rinv_r. rewrite <- mult_IZR. apply IZR_neq. lia.
Qed.
(** Equal to 0 only if no line matches *)
Lemma ratio_zero : forall m len, 0 <= m -> 2 * m <= len -> 0 < len < 2 ^ 53 -> (value (calculateRatio m len) = 0%R <-> m = 0).
Proof.
  intros m len H1 H2 H3. destruct (calculateRatio_ok m len H1 H2 ltac:(lia)) as [_ ->]. replace (len =? 0) with false by lia.
  unfold quotient. rewrite !nearest_int by lia. assert (0 < IZR len)%R by (apply IZR_lt; lia). split; intro E.
  - destruct (Z.eq_dec m 0) as [|D]; [assumption|exfalso]. set (q := (2 * IZR m / IZR len)%R) in *.
    assert (Q : (bpow radix2 (-53) <= q)%R).
    { unfold q. apply Rmult_le_reg_r with (IZR len); [lra|]. unfold Rdiv. rewrite Rmult_assoc, Rinv_l by lra. rewrite Rmult_1_r.
      assert (1 <= IZR m)%R by (apply IZR_le; lia).
      assert (bpow radix2 (-53) * IZR len <= 1)%R; [|lra].
      change (bpow radix2 (-53)) with (/ bpow radix2 53)%R.
      apply Rmult_le_reg_l with (bpow radix2 53); [apply bpow_gt_0|]. rewrite <- Rmult_assoc, Rinv_r by (apply Rgt_not_eq, bpow_gt_0).
      rewrite Rmult_1_l, Rmult_1_r. change (bpow radix2 53) with (IZR (2 ^ 53)). apply IZR_le. lia. }
    apply nearest_le in Q. rewrite E in Q. rewrite nearest_fix in Q by (apply generic_format_bpow; unfold FLT_exp; lia).
    pose proof (bpow_gt_0 radix2 (-53)). lra.
  - subst m. unfold Rdiv. rewrite Rmult_0_r, Rmult_0_l. apply nearest_0.
Qed.

(** * Counting *)

Lemma occ_cons : forall s x l, occurrences s (x :: l) = (if streq x s then 1 else 0) + occurrences s l.
Proof. intros. unfold occurrences. cbn [filter]. destruct (streq x s); [rewrite lenZ_cons; lia|lia]. Qed.
Lemma occ_app : forall s l l', occurrences s (l ++ l') = occurrences s l + occurrences s l'.
Proof. intros. induction l as [|x l IH]; [reflexivity|]. cbn [app]. rewrite !occ_cons, IH. lia. Qed.
Lemma occ_nonneg : forall s l, 0 <= occurrences s l.
Proof. intros. apply lenZ_nonneg. Qed.
Lemma streq_refl : forall s, streq s s = true.
Proof. intro s. unfold streq. destruct (list_eq_dec Z.eq_dec s s); congruence. Qed.
Lemma streq_eq : forall x s, streq x s = true -> x = s.
Proof. intros x s. unfold streq. destruct (list_eq_dec Z.eq_dec x s); congruence. Qed.
Lemma occ_perm : forall s l l', Permutation l l' -> occurrences s l = occurrences s l'.
Proof. intros s l l' P. induction P; rewrite ?occ_cons; lia. Qed.
Lemma occ_pos : forall s l, 0 < occurrences s l <-> In s l.
Proof.
  intros s l. induction l as [|x l IH]; [cbn; split; [lia|tauto]|]. rewrite occ_cons. pose proof (occ_nonneg s l). cbn [In]. destruct (streq x s) eqn:E.
  - apply streq_eq in E. split; [tauto|lia].
  - rewrite Z.add_0_l, IH. split; [tauto|]. intros [->|H']; [rewrite streq_refl in E; discriminate|exact H'].
Qed.
(** Fewer of every kind: a part of it *)
Lemma occ_le_perm : forall c a, (forall s, occurrences s c <= occurrences s a) -> exists d, Permutation a (c ++ d).
Proof.
  induction c as [|x c IH]; intros a H; [now exists a|].
  assert (I : In x a).
  { apply occ_pos. specialize (H x). rewrite occ_cons, streq_refl in H. pose proof (occ_nonneg x c). lia. }
  destruct (in_split _ _ I) as (l & r & ->). destruct (IH (l ++ r)) as (d & P).
  - intro s. specialize (H s). rewrite occ_app, !occ_cons in H. rewrite occ_app. lia.
  - exists d. rewrite <- Permutation_middle. cbn [app]. now constructor.
Qed.
Lemma perm_lenZ : forall (a b : list bytes), Permutation a b -> lenZ a = lenZ b.
Proof. intros a b P. unfold lenZ. now rewrite (Permutation_length P). Qed.
Lemma occ_le_len : forall c a, (forall s, occurrences s c <= occurrences s a) -> lenZ c <= lenZ a.
Proof. intros c a H. destruct (occ_le_perm c a H) as (d & P). rewrite (perm_lenZ _ _ P), lenZ_app. pose proof (lenZ_nonneg _ d). lia. Qed.
Lemma occ_le_all : forall c a, (forall s, occurrences s c <= occurrences s a) -> lenZ c = lenZ a -> Permutation a c.
Proof.
  intros c a H L. destruct (occ_le_perm c a H) as (d & P). rewrite (perm_lenZ _ _ P), lenZ_app in L. destruct d as [|x d].
  - now rewrite app_nil_r in P.
  - rewrite lenZ_cons in L. pose proof (lenZ_nonneg _ d). lia.
Qed.

(** ** A common subsequence *)
Inductive subseq : list bytes -> list bytes -> Prop :=
| sub_nil : forall l, subseq [] l
| sub_skip : forall x c l, subseq c l -> subseq c (x :: l)
| sub_take : forall x c l, subseq c l -> subseq (x :: c) (x :: l).
Lemma subseq_refl : forall l, subseq l l.
Proof. induction l; constructor; assumption. Qed.
Lemma subseq_front : forall p c l, subseq c l -> subseq c (p ++ l).
Proof. induction p as [|x p IH]; intros c l H; [exact H|]. cbn [app]. constructor. now apply IH. Qed.
Lemma subseq_app : forall p c l, subseq c l -> subseq (p ++ c) (p ++ l).
Proof. induction p as [|x p IH]; intros c l H; [exact H|]. cbn [app]. apply sub_take. now apply IH. Qed.
Lemma subseq_len : forall c l, subseq c l -> lenZ c <= lenZ l.
Proof. intros c l H. induction H; [apply lenZ_nonneg|rewrite lenZ_cons; lia|rewrite !lenZ_cons; lia]. Qed.
Lemma subseq_all : forall c l, subseq c l -> lenZ c = lenZ l -> c = l.
Proof.
  intros c l H. induction H as [l|x c l H IH|x c l H IH]; intro L.
  - destruct l as [|y l]; [reflexivity|]. rewrite lenZ_cons in L. pose proof (lenZ_nonneg _ l). change (lenZ (@nil bytes)) with 0 in L. lia.
  - rewrite lenZ_cons in L. pose proof (subseq_len _ _ H). lia.
  - rewrite !lenZ_cons in L. rewrite IH by lia. reflexivity.
Qed.
Lemma subseq_occ : forall c l s, subseq c l -> occurrences s c <= occurrences s l.
Proof. intros c l s H. induction H; rewrite ?occ_cons; [apply occ_nonneg|destruct (streq x s); lia|lia]. Qed.

Definition sizes (l : list Match) : Z := fold_right (fun m n => mSize m + n) 0 l.
Lemma sizes_fold : forall l n, fold_left (fun n b => n + mSize b) l n = n + sizes l.
Proof. induction l as [|m l IH]; intro n; cbn [fold_left sizes fold_right]; [lia|]. rewrite IH. fold (sizes l). lia. Qed.
Lemma sizes_app : forall l l', sizes (l ++ l') = sizes l + sizes l'.
Proof. induction l as [|m l IH]; intro l'; [reflexivity|]. cbn [app sizes fold_right]. fold (sizes (l ++ l')) (sizes l). rewrite IH. lia. Qed.
Lemma sep_common : forall a b l i j, 0 <= i -> 0 <= j -> sep a b i j l (lenZ a) (lenZ b) -> i <= lenZ a /\ j <= lenZ b /\ 0 <= sizes l /\
  exists c, subseq c (part a i (lenZ a)) /\ subseq c (part b j (lenZ b)) /\ lenZ c = sizes l.
Proof.
  intros a b. induction l as [|m l IH]; intros i j Hi Hj H; cbn [sep] in H.
  - split; [tauto|]. split; [tauto|]. split; [cbn; lia|]. exists []. split; [constructor|]. split; [constructor|reflexivity].
  - destruct H as (H1 & H2 & _ & [B1 B2] & H4). destruct (IH (mA m + mSize m) (mB m + mSize m) ltac:(lia) ltac:(lia) H4) as (K1 & K2 & K0 & c & C1 & C2 & C3).
    cbn [sizes fold_right]. fold (sizes l).
    split; [lia|]. split; [lia|]. split; [lia|]. exists (part a (mA m) (mA m + mSize m) ++ c).
    split; [|split].
    + rewrite <- (part_app a i (mA m) (lenZ a)) by lia. rewrite <- (part_app a (mA m) (mA m + mSize m) (lenZ a)) by lia. now apply subseq_front, subseq_app.
    + rewrite <- (part_app b j (mB m) (lenZ b)) by lia. rewrite <- (part_app b (mB m) (mB m + mSize m) (lenZ b)) by lia. apply subseq_front.
      assert (E : part a (mA m) (mA m + mSize m) = part b (mB m) (mB m + mSize m)) by (apply eq_part; try lia; exact B2).
      rewrite E. now apply subseq_app.
    + rewrite lenZ_app, lenZ_part by lia. rewrite C3. lia.
Qed.
Lemma separated_common : forall a b l, separated a b l (lenZ a) (lenZ b) -> 0 <= sizes l /\ exists c, subseq c a /\ subseq c b /\ lenZ c = sizes l.
Proof.
  intros a b [|m l] H; cbn [separated] in H.
  - split; [cbn; lia|]. exists []. repeat split; constructor.
  - destruct H as (H1 & H2 & [B1 B2] & H3).
    destruct (sep_common a b l (mA m + mSize m) (mB m + mSize m) ltac:(lia) ltac:(lia) H3) as (K1 & K2 & K0 & c & C1 & C2 & C3).
    cbn [sizes fold_right]. fold (sizes l). split; [lia|]. exists (part a (mA m) (mA m + mSize m) ++ c). split; [|split].
    + assert (P : part a 0 (mA m) ++ part a (mA m) (mA m + mSize m) ++ part a (mA m + mSize m) (lenZ a) = a) by (rewrite !part_app by lia; apply part_all).
      eapply eq_ind; [|exact P]. now apply subseq_front, subseq_app.
    + assert (P : part b 0 (mB m) ++ part b (mB m) (mB m + mSize m) ++ part b (mB m + mSize m) (lenZ b) = b) by (rewrite !part_app by lia; apply part_all).
      assert (E : part a (mA m) (mA m + mSize m) = part b (mB m) (mB m + mSize m)) by (apply eq_part; try lia; exact B2).
      rewrite E. eapply eq_ind; [|exact P]. now apply subseq_front, subseq_app.
    + rewrite lenZ_app, lenZ_part by lia. rewrite C3. lia.
Qed.
Lemma pairs_len : forall l, Forall (fun m => 0 <= mSize m) l -> lenZ (pairs l) = sizes l.
Proof.
  intros l H. induction H as [|m l H F IH]; [reflexivity|]. unfold pairs. cbn [flat_map sizes fold_right]. fold (pairs l) (sizes l).
  rewrite lenZ_app, IH. f_equal. unfold lenZ. rewrite map_length, seq_length. lia.
Qed.

(** ** The quick count *)
Definition counts (m : list (bytes * Z)) (b : list bytes) : Prop := forall s, getN m s = occurrences s b.
Lemma countLines_ok : forall b m s, getN (countLines b m) s = getN m s + occurrences s b.
Proof.
  induction b as [|x b IH]; intros m s; cbn [countLines]; [unfold occurrences; cbn; lia|]. rewrite IH, occ_cons. unfold getN at 1. cbn [lookup].
  destruct (streq x s) eqn:E; [apply streq_eq in E; subst x; lia|fold (getN m s); lia].
Qed.
Fixpoint takes (rest : bytes -> Z) (a : list bytes) : list bytes :=
  match a with
  | [] => []
  | s :: a =>
    let rest' := fun x => if streq s x then rest s - 1 else rest x in
    if 0 <? rest s then s :: takes rest' a else takes rest' a
  end.
Lemma takes_ext : forall a f g, (forall s, f s = g s) -> takes f a = takes g a.
Proof.
  induction a as [|s a IH]; intros f g H; [reflexivity|]. cbn [takes]. rewrite (H s).
  rewrite (IH (fun x => if streq s x then g s - 1 else f x) (fun x => if streq s x then g s - 1 else g x)); [reflexivity|].
  intro x. destruct (streq s x); [reflexivity|apply H].
Qed.
Lemma takes_occ : forall a f s, occurrences s (takes f a) = Z.min (occurrences s a) (Z.max 0 (f s)).
Proof.
  induction a as [|x a IH]; intros f s; cbn [takes]; [unfold occurrences; cbn; lia|]. rewrite occ_cons. pose proof (occ_nonneg s a).
  destruct (0 <? f x) eqn:L; rewrite ?occ_cons, IH; destruct (streq x s) eqn:E; try lia; apply streq_eq in E; subst x; lia.
Qed.
Lemma quickLoop_ok : forall full a avail n,
  quickLoop full avail n a = n + lenZ (takes (fun s => match lookup avail s with Some k => k | None => getN full s end) a).
Proof.
  intros full. induction a as [|s a IH]; intros avail n; cbn [quickLoop takes]; [unfold lenZ; cbn; lia|]. rewrite IH. set (k := match lookup avail s with Some k => k | None => getN full s end).
  rewrite (takes_ext a (fun s0 => match lookup ((s, k - 1) :: avail) s0 with Some k0 => k0 | None => getN full s0 end)
    (fun x => if streq s x then k - 1 else match lookup avail x with Some k0 => k0 | None => getN full x end)).
  - destruct (0 <? k); rewrite ?lenZ_cons; lia.
  - intro x. cbn [lookup]. destruct (streq s x); reflexivity.
Qed.
Lemma quick_shared : forall full a b, counts full b -> exists c, shared a b c /\ quickLoop full [] 0 a = lenZ c.
Proof.
  intros full a b H. exists (takes (fun s => getN full s) a). split.
  - intro s. rewrite takes_occ, H. pose proof (occ_nonneg s b). lia.
  - rewrite quickLoop_ok. reflexivity.
Qed.
Lemma shared_le : forall a b c, shared a b c -> lenZ c <= lenZ a /\ lenZ c <= lenZ b.
Proof. intros a b c H. split; apply occ_le_len; intro s; rewrite (H s); lia. Qed.
Lemma shared_unique : forall a b c c', shared a b c -> shared a b c' -> lenZ c = lenZ c'.
Proof.
  intros a b c c' H H'. assert (lenZ c <= lenZ c') by (apply occ_le_len; intro s; rewrite (H s), (H' s); lia).
  assert (lenZ c' <= lenZ c) by (apply occ_le_len; intro s; rewrite (H s), (H' s); lia). lia.
Qed.
Lemma shared_perm : forall a b c, shared a b c -> lenZ c = lenZ a -> lenZ c = lenZ b -> Permutation a b.
Proof.
  intros a b c H La Lb. transitivity c; [|symmetry]; apply occ_le_all; try assumption; intro s; rewrite (H s); lia.
Qed.
Lemma perm_shared : forall a b c, shared a b c -> Permutation a b -> lenZ c = lenZ a.
Proof.
  intros a b c H P. symmetry. apply perm_lenZ. apply occ_le_all; [intro s; rewrite (H s); lia|].
  assert (lenZ a <= lenZ c) by (apply occ_le_len; intro s; rewrite (H s), <- (occ_perm s _ _ P); lia). pose proof (shared_le _ _ _ H). lia.
Qed.
Lemma shared_none : forall a b c, shared a b c -> (lenZ c = 0 <-> forall s, In s a -> ~ In s b).
Proof.
  intros a b c H. split.
  - intros L s I J. apply occ_pos in I. apply occ_pos in J. destruct c as [|x c]; [|rewrite lenZ_cons in L; pose proof (lenZ_nonneg _ c); lia].
    specialize (H s). cbn in H. lia.
  - intro N. destruct c as [|x c]; [reflexivity|exfalso]. specialize (H x). rewrite occ_cons, streq_refl in H. pose proof (occ_nonneg x c).
    apply (N x); apply occ_pos; lia.
Qed.

(** * Histories *)
Definition rwf (r : rmatcher) : Prop := wf (plain r) /\ match fullBCount r with Some c => counts c (seqB (plain r)) | None => True end.

Lemma rperform_ok : forall r c, rwf r -> exists r', rperform r c = Some r' /\ rwf r' /\
  (seqA (plain r'), seqB (plain r')) = match c with RCall c => setBy (seqA (plain r), seqB (plain r)) c | _ => (seqA (plain r), seqB (plain r)) end.
Proof.
  intros r c [W C]. destruct c as [c| |].
  - destruct (perform_ok (plain r) c W) as (m' & E & W' & S' & _).
    assert (K : forall b, seqB m' = seqB (plain r) -> rperform r (RCall c) = Some (mkR m' (fullBCount r)) -> b = true ->
      exists r', rperform r (RCall c) = Some r' /\ rwf r' /\ (seqA (plain r'), seqB (plain r')) = setBy (seqA (plain r), seqB (plain r)) c).
    { intros b Hb Hr _. eexists. split; [exact Hr|]. split; [split; [exact W'|cbn [plain fullBCount]; now rewrite Hb]|exact S']. }
    destruct c as [a|b|a b| | |n]; cbn [perform] in E;
      [|eexists; split; [reflexivity|]; cbn [rSetSeq2 rSetSeq1 plain]; injection E as <-; split; [split; [exact W'|exact I]|exact S']
       |eexists; split; [reflexivity|]; cbn [rSetSeq2 rSetSeq1 plain]; injection E as <-; split; [split; [exact W'|exact I]|exact S'] | | |];
      (apply (K true); [cbn [setBy fst snd] in S'; congruence| |reflexivity]); cbn [rperform perform obind]; try rewrite E; try (injection E as <-); reflexivity.
  - cbn [rperform]. unfold Ratio. destruct (getBlocks_ok (plain r) W) as (m' & bl & G & _ & W' & A1 & A2 & _). rewrite G. cbn [obind].
    eexists. split; [reflexivity|]. split; [split; [exact W'|cbn [plain fullBCount]; now rewrite A2]|]. cbn [plain]. now rewrite A1, A2.
  - cbn [rperform]. eexists. split; [reflexivity|]. split; [|reflexivity]. split; [exact W|]. cbn [QuickRatio fst plain fullBCount].
    destruct (fullBCount r) as [f|]; [exact C|]. intro s. rewrite countLines_ok. reflexivity.
Qed.
Lemma rperforms_ok : forall h r, rwf r -> exists r', rperforms r h = Some r' /\ rwf r' /\
  (seqA (plain r'), seqB (plain r')) = rcurrent (seqA (plain r)) (seqB (plain r)) h.
Proof.
  unfold rcurrent, current. induction h as [|c h IH]; intros r W; cbn [rperforms flat_map fold_left].
  - exists r. auto.
  - destruct (rperform_ok r c W) as (r1 & E1 & W1 & S1). rewrite E1. cbn [obind]. destruct (IH r1 W1) as (r2 & E2 & W2 & S2).
    exists r2. split; [exact E2|]. split; [exact W2|]. rewrite S2, fold_left_app, S1. destruct c; reflexivity.
Qed.
Lemma rhistory : forall a b aj ij h, exists r, rperforms (newR (NewMatcherWithJunk a b aj ij)) h = Some r /\ rwf r /\
  seqA (plain r) = fst (rcurrent a b h) /\ seqB (plain r) = snd (rcurrent a b h).
Proof.
  intros a b aj ij h. destruct (new_wf a b aj ij) as (W & _ & A1 & A2 & _).
  destruct (rperforms_ok h (newR (NewMatcherWithJunk a b aj ij))) as (r & E & W' & S'); [split; [exact W|exact I]|].
  cbn [newR plain] in S'. rewrite A1, A2 in S'. exists r. split; [exact E|]. split; [exact W'|]. rewrite <- S'. auto.
Qed.

(** What the three ratios are *)
Lemma ratio_is : forall r, rwf r -> exists r' m' bl c, Ratio r = Some (r', calculateRatio (lenZ c) (lenZ (seqA (plain r)) + lenZ (seqB (plain r)))) /\
  GetMatchingBlocks (plain r) = Some (m', bl) /\ lenZ (pairs bl) = lenZ c /\ subseq c (seqA (plain r)) /\ subseq c (seqB (plain r)).
Proof.
  intros r [W _]. unfold Ratio. destruct (getBlocks_ok (plain r) W) as (m' & bl & G & B & W' & A1 & A2 & _). rewrite G. cbn [obind].
  destruct (computeBlocks_ok (seqA (plain r)) (seqB (plain r)) (isJunk (plain r)) (autoJunk (plain r))) as (l & E & S'). unfold blocksOf in B. rewrite B in E. injection E as ->.
  destruct (separated_common _ _ _ S') as (N & c & C1 & C2 & C3). eexists. exists m', (l ++ [mkMatch (lenZ (seqA (plain r))) (lenZ (seqB (plain r))) 0]), c.
  assert (Z : sizes (l ++ [mkMatch (lenZ (seqA (plain r))) (lenZ (seqB (plain r))) 0]) = lenZ c) by (rewrite sizes_app; cbn; lia).
  rewrite sizes_fold, Z, A1, A2, Z.add_0_l. split; [reflexivity|]. split; [reflexivity|]. split; [|auto]. rewrite <- Z. apply pairs_len.
  apply Forall_app. split; [|constructor; [cbn; lia|constructor]].
  assert (P : forall a b l i j ahi bhi, sep a b i j l ahi bhi -> Forall (fun m => 0 <= mSize m) l).
  { intros a b l'. induction l' as [|m l' IH]; intros i j ahi bhi H; [constructor|]. destruct H as (_ & _ & _ & [B1 _] & H). constructor; [lia|]. eapply IH. exact H. }
  destruct l as [|m l]; [constructor|]. destruct S' as (_ & _ & [B1 _] & S'). constructor; [lia|]. eapply P. exact S'.
Qed.
Lemma quick_is : forall r, rwf r -> exists c, shared (seqA (plain r)) (seqB (plain r)) c /\
  snd (QuickRatio r) = calculateRatio (lenZ c) (lenZ (seqA (plain r)) + lenZ (seqB (plain r))).
Proof.
  intros r [_ C]. unfold QuickRatio. cbn [snd]. destruct (quick_shared match fullBCount r with Some c => c | None => countLines (seqB (plain r)) [] end (seqA (plain r)) (seqB (plain r))) as (c & S' & E).
  - destruct (fullBCount r) as [f|]; [exact C|]. intro s. rewrite countLines_ok. reflexivity.
  - exists c. split; [exact S'|]. now rewrite E.
Qed.
