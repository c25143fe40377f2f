(** Proofs about the op codes and the grouped op codes. *)
From Verif Require Import Base DiffModel DiffSpec DiffProofs DiffBlockProofs.

(** * Op codes *)

(** Changes and equal parts alternate; p tells whether the one before was equal *)
Fixpoint alt (p : option bool) (codes : list OpCode) : Prop :=
  match codes with
  | [] => True
  | c :: r => p <> Some (Tag c =? tag_e) /\ alt (Some (Tag c =? tag_e)) r
  end.
Lemma alt_none : forall l p, alt p l -> alt None l.
Proof. intros [|c l] p H; cbn in *; [exact I|]. split; [discriminate|apply H]. Qed.
Lemma alt_app : forall l l' p, alt p (l ++ l') -> alt p l /\ alt None l'.
Proof.
  induction l as [|c l IH]; intros l' p H; cbn [app alt] in *.
  - split; [exact I|now apply alt_none in H].
  - destruct H as [H1 H2]. destruct (IH _ _ H2). auto.
Qed.
Lemma alt_alternate : forall codes, alt None codes <-> alternate codes.
Proof.
  intro codes. unfold alternate. split.
  - intros H l c c' r ->. apply alt_app in H. destruct H as [_ H]. cbn [alt] in H. destruct H as (_ & H & _).
    destruct (Tag c =? tag_e) eqn:E1, (Tag c' =? tag_e) eqn:E2; try (exfalso; now apply H).
    + split; intros; lia.
    + split; intros; lia.
  - induction codes as [|c codes IH]; intro H; [exact I|]. split; [discriminate|].
    destruct codes as [|c' codes]; [exact I|]. split.
    + specialize (H [] c c' codes eq_refl). intro F. injection F as F. destruct (Tag c =? tag_e) eqn:E1, (Tag c' =? tag_e) eqn:E2; try discriminate; lia.
    + apply IH. intros l d d' r E. apply (H (c :: l) d d' r). now rewrite E.
Qed.

Section Codes.
  Variable a b : list bytes.

  (** A code that is right, with equal parts of equal lengths, in range *)
  Definition right_code (c : OpCode) : Prop :=
    truthful a b c /\ 0 <= I1 c /\ 0 <= J1 c /\ (Tag c = tag_e -> I2 c - I1 c = J2 c - J1 c).

  Lemma block_part : forall m, block a b m -> 0 <= mA m -> mA m + mSize m <= lenZ a -> 0 <= mB m -> mB m + mSize m <= lenZ b ->
    part a (mA m) (mA m + mSize m) = part b (mB m) (mB m + mSize m).
  Proof. intros m [B1 B2] H1 H2 H3 H4. apply eq_part; try lia. exact B2. Qed.

  (** The code of the lines between blocks *)
  Definition between (i j ai bj : Z) : list OpCode :=
    let tag := if (i <? ai) && (j <? bj) then tag_r else if i <? ai then tag_d else if j <? bj then tag_i else 0 in
    if 0 <? tag then [mkOp tag i ai j bj] else [].
  Lemma between_right : forall i j ai bj, 0 <= i <= ai -> 0 <= j <= bj ->
    tiles i j (between i j ai bj) ai bj /\ Forall right_code (between i j ai bj) /\
    Forall (fun c => Tag c <> tag_e) (between i j ai bj) /\ (List.length (between i j ai bj) <= 1)%nat /\
    (between i j ai bj = [] -> i = ai /\ j = bj).
  Proof.
    intros i j ai bj Hi Hj. unfold between.
    assert (One : forall t, t <> tag_e -> (t = tag_r /\ i < ai /\ j < bj \/ t = tag_d /\ i < ai /\ j = bj \/ t = tag_i /\ i = ai /\ j < bj) ->
      tiles i j [mkOp t i ai j bj] ai bj /\ Forall right_code [mkOp t i ai j bj] /\ Forall (fun c => Tag c <> tag_e) [mkOp t i ai j bj] /\
      (List.length [mkOp t i ai j bj] <= 1)%nat /\ ([mkOp t i ai j bj] = [] -> i = ai /\ j = bj)).
    { intros t Ht H. split; [cbn; lia|]. split; [|split; [repeat constructor; exact Ht|split; [cbn; lia|intro; discriminate]]].
      constructor; [|constructor]. split; [|cbn; repeat split; lia]. right. unfold truthful. cbn [Tag I1 I2 J1 J2].
      destruct H as [H|[H|H]]; [left|right; left|right; right]; lia. }
    destruct (i <? ai) eqn:E1, (j <? bj) eqn:E2; cbn [andb].
    - apply One; [discriminate|]. left. lia.
    - apply One; [discriminate|]. right. left. lia.
    - apply One; [discriminate|]. right. right. lia.
    - cbn. repeat split; try lia; constructor.
  Qed.

  Lemma tiles_app : forall l l' i j i' j' i2 j2, tiles i j l i' j' -> tiles i' j' l' i2 j2 -> tiles i j (l ++ l') i2 j2.
  Proof.
    induction l as [|c l IH]; intros l' i j i' j' i2 j2 H H'; cbn [tiles app] in *.
    - destruct H as [-> ->]. exact H'.
    - destruct H as (H1 & H2 & H3). split; [exact H1|]. split; [exact H2|]. now apply (IH l' _ _ i' j').
  Qed.
  (** The codes of blocks which do not touch (from an equal part on) *)
  Lemma codesOf_sep : forall l i j, 0 <= i -> 0 <= j -> sep a b i j l (lenZ a) (lenZ b) ->
    let codes := codesOf i j (l ++ [mkMatch (lenZ a) (lenZ b) 0]) in
    tiles i j codes (lenZ a) (lenZ b) /\ Forall right_code codes /\ alt (Some true) codes.
  Proof.
    assert (Q : forall m i j r,
      codesOf i j (m :: r) = between i j (mA m) (mB m) ++ (if 0 <? mSize m then [mkOp tag_e (mA m) (mA m + mSize m) (mB m) (mB m + mSize m)] else [])
                             ++ codesOf (mA m + mSize m) (mB m + mSize m) r) by reflexivity.
    induction l as [|m l IH]; intros i j Hi Hj S'; cbv zeta; cbn [app sep] in *.
    - rewrite Q. cbn [mA mB mSize Z.ltb Z.compare app codesOf]. rewrite app_nil_r.
      destruct (between_right i j (lenZ a) (lenZ b)) as (B1 & B2 & B3 & B4 & B5); try lia.
      split; [exact B1|]. split; [exact B2|]. destruct (between i j (lenZ a) (lenZ b)) as [|c [|c' r]]; [exact I| |cbn in B4; lia].
      inversion B3 as [|? ? N _]; subst. cbn [alt]. split; [|exact I]. destruct (Tag c =? tag_e) eqn:E; [lia|discriminate].
    - destruct S' as (S1 & S2 & S3 & B & S4). rewrite Q. pose proof B as [B1 _].
      destruct (0 <? mSize m) eqn:E; [|lia].
      assert (Bd : mA m + mSize m <= lenZ a /\ mB m + mSize m <= lenZ b).
      { clear -S4. revert S4. generalize (mA m + mSize m) (mB m + mSize m). induction l as [|m' l IH]; intros x y S4; cbn [sep] in S4; [lia|].
        destruct S4 as (T1 & T2 & _ & [T3 _] & T4). apply IH in T4. lia. }
      destruct (IH (mA m + mSize m) (mB m + mSize m)) as (T1 & T2 & T3); try lia; [exact S4|].
      destruct (between_right i j (mA m) (mB m)) as (C1 & C2 & C3 & C4 & C5); try lia.
      pose proof (block_part m B ltac:(lia) ltac:(lia) ltac:(lia) ltac:(lia)) as P.
      split; [|split].
      + eapply tiles_app; [exact C1|]. cbn [app tiles I1 I2 J1 J2]. auto.
      + apply Forall_app. split; [exact C2|]. cbn [app]. constructor; [|exact T2].
        split; [left; repeat split; cbn [I1 I2 J1 J2]; try lia; exact P|]. cbn [I1 I2 J1 J2]. repeat split; lia.
      + destruct (between i j (mA m) (mB m)) as [|c [|c' r]]; [exfalso; destruct (C5 eq_refl); lia| |cbn in C4; lia].
        inversion C3 as [|? ? N _]; subst. cbn [alt app Tag]. destruct (Tag c =? tag_e) eqn:Ec; [lia|].
        split; [discriminate|]. split; [discriminate|]. exact T3.
  Qed.

  Lemma sep_bounds : forall l x y ahi bhi, sep a b x y l ahi bhi -> x <= ahi /\ y <= bhi.
  Proof.
    induction l as [|m' l IH]; intros x y ahi bhi S4; cbn [sep] in S4; [lia|].
    destruct S4 as (T1 & T2 & _ & [T3 _] & T4). apply IH in T4. lia.
  Qed.

  (** Codes that are right from (i, j) on *)
  Definition right_codes (i j : Z) (codes : list OpCode) (i' j' : Z) : Prop :=
    tiles i j codes i' j' /\ Forall right_code codes /\ alt None codes.

  Theorem codesOf_ok : forall l, separated a b l (lenZ a) (lenZ b) ->
    right_codes 0 0 (codesOf 0 0 (l ++ [mkMatch (lenZ a) (lenZ b) 0])) (lenZ a) (lenZ b).
  Proof.
    assert (Q : forall m i j r,
      codesOf i j (m :: r) = between i j (mA m) (mB m) ++ (if 0 <? mSize m then [mkOp tag_e (mA m) (mA m + mSize m) (mB m) (mB m + mSize m)] else [])
                             ++ codesOf (mA m + mSize m) (mB m + mSize m) r) by reflexivity.
    intros [|m l] S'.
    - destruct (codesOf_sep [] 0 0 ltac:(lia) ltac:(lia) S') as (H1 & H2 & H3). split; [exact H1|]. split; [exact H2|]. now apply alt_none in H3.
    - destruct S' as (S1 & S2 & B & S4). cbn [app]. rewrite Q. pose proof B as [B1 _]. destruct (0 <? mSize m) eqn:E; [|lia].
      pose proof (sep_bounds _ _ _ _ _ S4) as Bd.
      destruct (codesOf_sep l (mA m + mSize m) (mB m + mSize m)) as (T1 & T2 & T3); try lia; [exact S4|].
      destruct (between_right 0 0 (mA m) (mB m)) as (C1 & C2 & C3 & C4 & C5); try lia.
      pose proof (block_part m B ltac:(lia) ltac:(lia) ltac:(lia) ltac:(lia)) as P.
      split; [|split].
      + eapply tiles_app; [exact C1|]. cbn [app tiles I1 I2 J1 J2]. auto.
      + apply Forall_app. split; [exact C2|]. cbn [app]. constructor; [|exact T2].
        split; [left; repeat split; cbn [I1 I2 J1 J2]; try lia; exact P|]. cbn [I1 I2 J1 J2]. repeat split; lia.
      + destruct (between 0 0 (mA m) (mB m)) as [|c [|c' r]]; [| |cbn in C4; lia].
        * cbn [app alt Tag]. split; [discriminate|exact T3].
        * inversion C3 as [|? ? N _]; subst. cbn [alt app Tag]. destruct (Tag c =? tag_e) eqn:Ec; [lia|].
          split; [discriminate|]. split; [discriminate|]. exact T3.
  Qed.

  Lemma tiles_le : forall codes i j i' j', Forall right_code codes -> tiles i j codes i' j' -> i <= i' /\ j <= j'.
  Proof.
    induction codes as [|c codes IH]; intros i j i' j' R T; cbn [tiles] in T; [lia|].
    inversion R as [|? ? R1 R2]; subst. destruct T as (T1 & T2 & T3). destruct (IH _ _ _ _ R2 T3).
    destruct R1 as ([K|[K|[K|K]]] & _); lia.
  Qed.

  Lemma apply_right : forall codes i j i' j', Forall right_code codes -> tiles i j codes i' j' -> apply a b codes = part b j j'.
  Proof.
    induction codes as [|c codes IH]; intros i j i' j' R T; cbn [tiles] in T.
    - cbn. symmetry. apply part_empty. lia.
    - pose proof (tiles_le _ _ _ _ _ R T) as L. inversion R as [|? ? R1 R2]; subst. destruct T as (T1 & T2 & T3).
      unfold apply in *. cbn [map List.concat]. rewrite (IH _ _ _ _ R2 T3). destruct (tiles_le _ _ _ _ _ R2 T3) as [L1 L2]. subst i j.
      destruct R1 as (R1 & R3 & R4 & R5). rewrite <- (part_app b (J1 c) (J2 c) j').
      + destruct (Tag c =? tag_e) eqn:E; [|reflexivity]. f_equal. destruct R1 as [H|[H|[H|H]]]; destruct H as (H & H'); try (rewrite H in E; discriminate).
        apply H'.
      + destruct R1 as [H|[H|[H|H]]]; lia.
      + exact L2.
  Qed.

  Theorem right_good : forall codes, right_codes 0 0 codes (lenZ a) (lenZ b) -> good_codes a b codes.
  Proof.
    intros codes (T & R & A). split; [|split; [|split]].
    - eapply Forall_impl; [|exact R]. intros c Hc. apply Hc.
    - exact T.
    - rewrite (apply_right codes 0 0 (lenZ a) (lenZ b) R T). apply part_all.
    - now apply alt_alternate.
  Qed.
End Codes.
