(** Facts about the decimal specification: it determines the text uniquely. *)
From Verif Require Import Base DecimalSpec.

Lemma dvf_app : forall a b acc,
  digits_value_from acc (a ++ b) = digits_value_from (digits_value_from acc a) b.
Proof. induction a; simpl; intros; auto. Qed.

Lemma dvf_acc : forall t acc,
  digits_value_from acc t = acc * 10 ^ lenZ t + digits_value_from 0 t.
Proof.
  induction t as [|c t IH]; intros acc; unfold lenZ in *.
  - cbn. lia.
  - cbn [digits_value_from List.length].
    rewrite IH. rewrite (IH (10 * 0 + (c - 48))).
    rewrite Nat2Z.inj_succ, Z.pow_succ_r by lia. ring.
Qed.

Lemma digits_value_app : forall a b,
  digits_value (a ++ b) = digits_value a * 10 ^ lenZ b + digits_value b.
Proof. intros. unfold digits_value. rewrite dvf_app. apply dvf_acc. Qed.

Lemma digits_value_bounds : forall t, forallb is_digit t = true ->
  0 <= digits_value t < 10 ^ lenZ t.
Proof.
  induction t as [|c t IH] using rev_ind; intros H.
  - cbn. lia.
  - rewrite forallb_app in H. apply andb_true_iff in H as [H1 H2].
    specialize (IH H1). cbn in H2. rewrite andb_true_r in H2.
    unfold is_digit in H2. apply andb_true_iff in H2 as [Ha Hb].
    rewrite digits_value_app. unfold lenZ in *. rewrite app_length. cbn [List.length].
    rewrite Nat2Z.inj_add. change (Z.of_nat 1) with 1.
    rewrite Z.pow_add_r by lia. change (10^1) with 10.
    replace (digits_value [c]) with (c - 48) by (unfold digits_value; cbn [digits_value_from]; lia).
    lia.
Qed.

Lemma canon_nat_nonneg : forall t n, canon_nat t n -> 0 <= n.
Proof. intros t n (_ & H & <- & _). now apply digits_value_bounds. Qed.

Lemma dv_cons : forall c t, digits_value (c :: t) = (c - 48) * 10 ^ lenZ t + digits_value t.
Proof.
  intros. change (c :: t) with ([c] ++ t). rewrite digits_value_app. f_equal.
Qed.

Lemma digits_same_len : forall t1 t2, List.length t1 = List.length t2 ->
  forallb is_digit t1 = true -> forallb is_digit t2 = true ->
  digits_value t1 = digits_value t2 -> t1 = t2.
Proof.
  induction t1 as [|c1 t1 IH]; destruct t2 as [|c2 t2]; intros L H1 H2 V; try discriminate; auto.
  cbn in L. injection L as L.
  cbn [forallb] in H1, H2. apply andb_true_iff in H1 as [D1 H1], H2 as [D2 H2].
  pose proof (digits_value_bounds t1 H1). pose proof (digits_value_bounds t2 H2).
  rewrite !dv_cons in V.
  replace (lenZ t2) with (lenZ t1) in * by (unfold lenZ; congruence).
  assert (0 < 10 ^ lenZ t1) by (apply Z.pow_pos_nonneg; unfold lenZ; lia).
  assert (c1 = c2) by nia. subst c2.
  f_equal. apply IH; auto. lia.
Qed.

Lemma canon_nat_lower : forall c t n, canon_nat (c :: t) n -> (0 < n)%Z -> 10 ^ lenZ t <= n.
Proof.
  intros c t n (_ & H & V & Z0) Hn.
  cbn [forallb] in H. apply andb_true_iff in H as [D H].
  pose proof (digits_value_bounds t H) as B.
  rewrite dv_cons in V. unfold is_digit in D.
  apply andb_true_iff in D as [Da Db]. cbn in Z0.
  destruct (Z.eq_dec c 48) as [->|].
  - specialize (Z0 eq_refl). injection Z0 as ->. cbn in V. lia.
  - assert (0 < 10 ^ lenZ t) by (apply Z.pow_pos_nonneg; unfold lenZ; lia). nia.
Qed.

(** The canonical text is unique. *)
Lemma canon_nat_unique : forall n t1 t2, canon_nat t1 n -> canon_nat t2 n -> t1 = t2.
Proof.
  intros n t1 t2 C1 C2.
  pose proof (canon_nat_nonneg _ _ C1) as Hn.
  assert (L : List.length t1 = List.length t2).
  { destruct t1 as [|c1 t1]; [destruct C1; congruence|].
    destruct t2 as [|c2 t2]; [destruct C2; congruence|].
    destruct (Z.eq_dec n 0) as [->|].
    - assert (forall c t, canon_nat (c :: t) 0 -> c :: t = [48]).
      { intros c t (_ & H & V & Z0). cbn in H. apply andb_true_iff in H as [D H].
        pose proof (digits_value_bounds t H). rewrite dv_cons in V.
        unfold is_digit in D. apply andb_true_iff in D as [Da Db].
        apply Z0. cbn.
        assert (0 < 10 ^ lenZ t) by (apply Z.pow_pos_nonneg; unfold lenZ; lia). nia. }
      rewrite (H _ _ C1), (H _ _ C2). reflexivity.
    - pose proof (canon_nat_lower _ _ _ C1 ltac:(lia)) as L1.
      pose proof (canon_nat_lower _ _ _ C2 ltac:(lia)) as L2.
      destruct C1 as (_ & H1 & V1 & _), C2 as (_ & H2 & V2 & _).
      pose proof (digits_value_bounds _ H1) as B1. pose proof (digits_value_bounds _ H2) as B2.
      rewrite V1 in B1. rewrite V2 in B2.
      cbn [List.length]. f_equal.
      assert (U : forall a b : nat, 10 ^ Z.of_nat a <= n -> n < 10 ^ Z.of_nat (S b) -> (a <= b)%nat).
      { intros a b Ha Hb. destruct (Nat.le_gt_cases a b); auto.
        assert (10 ^ Z.of_nat (S b) <= 10 ^ Z.of_nat a) by (apply Z.pow_le_mono_r; lia). lia. }
      unfold lenZ in *. cbn [List.length] in *.
      apply Nat.le_antisymm; eapply U; eauto; lia. }
  destruct C1 as (_ & H1 & V1 & _), C2 as (_ & H2 & V2 & _).
  apply digits_same_len; auto. congruence.
Qed.

Lemma canon_int_unique : forall n t1 t2, canon_int t1 n -> canon_int t2 n -> t1 = t2.
Proof.
  intros n t1 t2 [[A1 B1]|[A1 (u1 & -> & B1)]] [[A2 B2]|[A2 (u2 & -> & B2)]]; try lia.
  - eapply canon_nat_unique; eauto.
  - f_equal. eapply canon_nat_unique; eauto.
Qed.

(** Appending a three digit group to a canonical positive numeral. *)
Lemma canon_append3 : forall t n g r,
  canon_nat t n -> 0 < n -> List.length g = 3%nat -> forallb is_digit g = true ->
  digits_value g = r -> canon_nat (t ++ g) (n * 1000 + r).
Proof.
  intros t n g r (Ht & Hd & Hv & Hz) Hn Lg Hg Vr.
  repeat split.
  - destruct t; [congruence|discriminate].
  - rewrite forallb_app, Hd, Hg. reflexivity.
  - rewrite digits_value_app. unfold lenZ. rewrite Lg. rewrite Hv, Vr. reflexivity.
  - destruct t as [|c t]; [congruence|]. cbn in *. intros E. specialize (Hz E).
    injection Hz as -> ->. cbn in Hv. lia.
Qed.
