(** Proofs about the sequence matcher: lists, the longest match, the matching blocks. *)
From Coq Require Import Sorted.
From Verif Require Import Base DiffModel DiffSpec.

Lemma streq_eq : forall a b, streq a b = true <-> a = b.
Proof. intros a b. unfold streq. destruct (list_eq_dec Z.eq_dec a b); split; congruence. Qed.
Lemma streq_refl : forall a, streq a a = true.
Proof. intro a. now apply streq_eq. Qed.
Lemma inb_in : forall s l, inb s l = true <-> In s l.
Proof.
  intros s l. unfold inb. rewrite existsb_exists. split.
  - intros (x & H & E). apply streq_eq in E. now subst.
  - intro H. exists s. split; [exact H|apply streq_refl].
Qed.

(** * Positions and parts *)
Lemma nthZ_some : forall (A : Type) (l : list A) i, 0 <= i < lenZ l -> exists x, nthZ l i = Some x.
Proof.
  intros A l i H. unfold nthZ, lenZ in *. destruct (i <? 0) eqn:E; [lia|].
  destruct (nth_error l (Z.to_nat i)) eqn:E2; [eauto|]. apply nth_error_None in E2. lia.
Qed.
Lemma nthZ_bound : forall (A : Type) (l : list A) i x, nthZ l i = Some x -> 0 <= i < lenZ l.
Proof.
  intros A l i x H. unfold nthZ, lenZ in *. destruct (i <? 0) eqn:E; [discriminate|].
  assert (Z.to_nat i < List.length l)%nat by (apply nth_error_Some; congruence). lia.
Qed.
Lemma nthZ_none : forall (A : Type) (l : list A) i, i < 0 \/ lenZ l <= i -> nthZ l i = None.
Proof.
  intros A l i H. destruct (nthZ l i) eqn:E; [|reflexivity]. apply nthZ_bound in E. lia.
Qed.
Lemma nthZ_cons : forall (A : Type) (x : A) l i, nthZ (x :: l) i = if i =? 0 then Some x else nthZ l (i - 1).
Proof.
  intros A x l i. unfold nthZ. destruct (i =? 0) eqn:E0.
  - assert (i = 0) by lia. subst. reflexivity.
  - destruct (i <? 0) eqn:E1; destruct (i - 1 <? 0) eqn:E2; try lia; try reflexivity.
    replace (Z.to_nat i) with (S (Z.to_nat (i - 1))) by lia. reflexivity.
Qed.
Lemma nthZ_ext : forall (A : Type) (l l' : list A), (forall d, 0 <= d -> nthZ l d = nthZ l' d) -> l = l'.
Proof.
  intros A l. induction l as [|x l IH]; intros [|x' l'] H.
  - reflexivity.
  - specialize (H 0 ltac:(lia)). rewrite nthZ_cons in H. discriminate.
  - specialize (H 0 ltac:(lia)). rewrite nthZ_cons in H. discriminate.
  - f_equal.
    + specialize (H 0 ltac:(lia)). rewrite !nthZ_cons in H. now injection H.
    + apply IH. intros d Hd. specialize (H (d + 1) ltac:(lia)). rewrite !nthZ_cons in H.
      destruct (d + 1 =? 0) eqn:E; [lia|]. now replace (d + 1 - 1) with d in H by lia.
Qed.
Lemma lenZ_nonneg : forall (A : Type) (l : list A), 0 <= lenZ l.
Proof. intros. unfold lenZ. lia. Qed.
Lemma lenZ_cons : forall (A : Type) (x : A) l, lenZ (x :: l) = 1 + lenZ l.
Proof. intros. unfold lenZ. cbn [List.length]. lia. Qed.
Lemma lenZ_app : forall (A : Type) (l l' : list A), lenZ (l ++ l') = lenZ l + lenZ l'.
Proof. intros. unfold lenZ. rewrite app_length. lia. Qed.
Lemma lenZ_part : forall l i j, 0 <= i -> i <= j -> j <= lenZ l -> lenZ (part l i j) = j - i.
Proof.
  intros l i j Hi Hj Hl. unfold part, lenZ in *. rewrite firstn_length, skipn_length. lia.
Qed.
Lemma nthZ_part : forall l i j d, 0 <= i -> 0 <= d < j - i -> nthZ (part l i j) d = nthZ l (i + d).
Proof.
  intros l i j d Hi Hd. unfold nthZ, part.
  destruct (d <? 0) eqn:E1; [lia|]. destruct (i + d <? 0) eqn:E2; [lia|].
  replace (Z.to_nat (i + d)) with (Z.to_nat i + Z.to_nat d)%nat by lia.
  assert (Hn : (Z.to_nat d < Z.to_nat (j - i))%nat) by lia.
  clear - Hn. generalize dependent (Z.to_nat d). generalize (Z.to_nat (j - i)). generalize (Z.to_nat i). clear.
  intros i n d Hd. revert l. induction i as [|i IH]; intro l.
  - cbn [skipn Nat.add]. revert n d Hd. induction l as [|x l IHl]; intros [|n] [|d] Hd; cbn; try lia; try reflexivity.
    apply IHl. lia.
  - destruct l as [|x l].
    + rewrite skipn_nil, firstn_nil. now destruct d.
    + cbn [skipn Nat.add nth_error]. apply IH.
Qed.
Lemma part_empty : forall l i j, j <= i -> part l i j = [].
Proof. intros l i j H. unfold part. replace (Z.to_nat (j - i)) with 0%nat by lia. reflexivity. Qed.
Lemma skipn_add : forall (A : Type) x y (l : list A), skipn x (skipn y l) = skipn (x + y) l.
Proof.
  intros A x y. induction y as [|y IH]; intro l; [now rewrite Nat.add_0_r|].
  destruct l as [|c l]; [now rewrite !skipn_nil|]. rewrite Nat.add_succ_r. cbn [skipn]. apply IH.
Qed.
Lemma part_app : forall l i j k, 0 <= i <= j -> j <= k -> part l i j ++ part l j k = part l i k.
Proof.
  intros l i j k H1 H2. unfold part.
  replace (Z.to_nat j) with (Z.to_nat (j - i) + Z.to_nat i)%nat by lia.
  rewrite <- (skipn_add _ (Z.to_nat (j - i)) (Z.to_nat i) l).
  replace (Z.to_nat (k - i)) with (Z.to_nat (j - i) + Z.to_nat (k - j))%nat by lia.
  generalize (skipn (Z.to_nat i) l) as r. intro r. generalize (Z.to_nat (j - i)) as p, (Z.to_nat (k - j)) as q.
  clear. intros p q. revert r. induction p as [|p IH]; intros r; cbn; [reflexivity|].
  destruct r as [|x r]; [now rewrite firstn_nil|]. cbn. now rewrite IH.
Qed.
Lemma part_all : forall l, part l 0 (lenZ l) = l.
Proof. intro l. unfold part, lenZ. cbn [skipn Z.to_nat]. rewrite Z.sub_0_r, Nat2Z.id. apply firstn_all. Qed.
Lemma eq_part : forall a b i j k, 0 <= i -> i + k <= lenZ a -> 0 <= j -> j + k <= lenZ b -> 0 <= k ->
  (part a i (i + k) = part b j (j + k) <-> forall d, 0 <= d < k -> nthZ a (i + d) = nthZ b (j + d)).
Proof.
  intros a b i j k Hi Hik Hj Hjk Hk. split.
  - intros H d Hd. rewrite <- (nthZ_part a i (i + k)) by lia. rewrite <- (nthZ_part b j (j + k)) by lia. now rewrite H.
  - intro H. apply nthZ_ext. intros d Hd. destruct (Z_lt_ge_dec d k) as [L|G].
    + rewrite !nthZ_part by lia. apply H. lia.
    + rewrite !nthZ_none; [reflexivity| |]; right; rewrite lenZ_part; lia.
Qed.

(** * The longest match *)
Section LongestProofs.
  Variable a b : list bytes.
  Variable bJunk : list bytes.
  Variable b2j : list (bytes * list Z).
  Variables alo ahi blo bhi : Z.
  Hypothesis Wa : 0 <= alo /\ alo <= ahi /\ ahi <= lenZ a.
  Hypothesis Wb : 0 <= blo /\ blo <= bhi /\ bhi <= lenZ b.
  (** The lines that are in the index *)
  Variable Ix : bytes -> Prop.
  Hypothesis sound : forall s j, In j (get b2j s) -> nthZ b j = Some s.
  Hypothesis sorted : forall s, StronglySorted Z.lt (get b2j s).
  Hypothesis only : forall s j, In j (get b2j s) -> Ix s.
  Hypothesis complete : forall s j, Ix s -> nthZ b j = Some s -> In j (get b2j s).

  Definition wrun (i j k : Z) : Prop :=
    alo <= i /\ i + k <= ahi /\ blo <= j /\ j + k <= bhi /\ 0 < k /\
    forall d, 0 <= d < k -> nthZ a (i + d) = nthZ b (j + d).
  Definition irun (i j k : Z) : Prop :=
    wrun i j k /\ forall d s, 0 <= d < k -> nthZ a (i + d) = Some s -> Ix s.
  (** j2len after the line i of a, but for the positions js *)
  Definition row (i : Z) (js : list Z) (m : list (Z * Z)) : Prop :=
    (forall j, 0 <= get2 m j) /\
    (forall j, 0 < get2 m j -> irun (i - get2 m j + 1) (j - get2 m j + 1) (get2 m j)) /\
    (forall j k, irun (i - k + 1) (j - k + 1) k -> ~ In j js -> k <= get2 m j).
  (** the best so far, after the lines before i and, of i, the positions but js *)
  Definition bestIs (i : Z) (js : list Z) (m : Match) : Prop :=
    (m = mkMatch alo blo 0 \/
     (irun (mA m) (mB m) (mSize m) /\
      (mA m + mSize m - 1 < i \/ (mA m + mSize m - 1 = i /\ Forall (fun j => mB m + mSize m - 1 < j) js)))) /\
    (forall i' j' k', irun i' j' k' ->
       i' + k' - 1 < i \/ (i' + k' - 1 = i /\ ~ In (j' + k' - 1) js) ->
       k' < mSize m \/ (k' = mSize m /\ earlier (mA m) (mB m) i' j')).

  Lemma irun_prefix : forall i j k, irun i j k -> 1 < k -> irun i j (k - 1).
  Proof.
    intros i j k ((H1 & H2 & H3 & H4 & H5 & H6) & H7) Hk. split.
    - repeat split; try lia. intros d Hd. apply H6. lia.
    - intros d s Hd. apply H7. lia.
  Qed.

  Lemma wrun_step : forall s i j m, alo <= i < ahi -> blo <= j < bhi -> nthZ a i = Some s -> nthZ b j = Some s -> Ix s ->
    row (i - 1) [] m -> irun (i - (get2 m (j - 1) + 1) + 1) (j - (get2 m (j - 1) + 1) + 1) (get2 m (j - 1) + 1).
  Proof.
    intros s i j m Hi Hj Ea Eb HI (R1 & R2 & R3). specialize (R1 (j - 1)). specialize (R2 (j - 1)).
    destruct (Z.eq_dec (get2 m (j - 1)) 0) as [E|E].
    - rewrite E. split.
      + repeat split; try lia. intros d Hd. replace d with 0 by lia.
        replace (i - (0 + 1) + 1 + 0) with i by lia. replace (j - (0 + 1) + 1 + 0) with j by lia. congruence.
      + intros d t Hd. replace (i - (0 + 1) + 1 + d) with i by lia. congruence.
    - destruct (R2 ltac:(lia)) as ((H1 & H2 & H3 & H4 & H5 & H6) & H7). split.
      + repeat split; try lia. intros d Hd. destruct (Z.eq_dec d (get2 m (j - 1))) as [Ed|Ed].
        * subst d. replace (i - (get2 m (j - 1) + 1) + 1 + get2 m (j - 1)) with i by lia.
          replace (j - (get2 m (j - 1) + 1) + 1 + get2 m (j - 1)) with j by lia. congruence.
        * specialize (H6 d ltac:(lia)).
          replace (i - (get2 m (j - 1) + 1) + 1 + d) with (i - 1 - get2 m (j - 1) + 1 + d) by lia.
          replace (j - (get2 m (j - 1) + 1) + 1 + d) with (j - 1 - get2 m (j - 1) + 1 + d) by lia. exact H6.
      + intros d t Hd Et. destruct (Z.eq_dec d (get2 m (j - 1))) as [Ed|Ed].
        * subst d. replace (i - (get2 m (j - 1) + 1) + 1 + get2 m (j - 1)) with i in Et by lia. congruence.
        * apply (H7 d t ltac:(lia)). now replace (i - 1 - get2 m (j - 1) + 1 + d) with (i - (get2 m (j - 1) + 1) + 1 + d) by lia.
  Qed.

  (** a run that ends in line i of a is no longer than what j2len says *)
  Lemma irun_step : forall i j m k, row (i - 1) [] m -> irun (i - k + 1) (j - k + 1) k -> k <= get2 m (j - 1) + 1.
  Proof.
    intros i j m k (R1 & R2 & R3) H. specialize (R1 (j - 1)). destruct (Z_le_gt_dec k 1); [lia|].
    assert (P : irun (i - 1 - (k - 1) + 1) (j - 1 - (k - 1) + 1) (k - 1)).
    { replace (i - 1 - (k - 1) + 1) with (i - k + 1) by lia. replace (j - 1 - (k - 1) + 1) with (j - k + 1) by lia.
      apply irun_prefix; [exact H|lia]. }
    specialize (R3 _ _ P ltac:(easy)). lia.
  Qed.

  Lemma scanB_ok : forall s i, alo <= i < ahi -> nthZ a i = Some s ->
    forall j2len, row (i - 1) [] j2len ->
    forall js m best, (forall j, In j js -> nthZ b j = Some s) -> (forall j : Z, In j js -> Ix s) -> StronglySorted Z.lt js ->
    row i js m -> bestIs i js best ->
    exists m' best', scanB blo bhi i j2len js m best = (m', best') /\ row i [] m' /\ bestIs i [] best'.
  Proof.
    intros s i Hi Es j2len R0 js. induction js as [|j js IH]; intros m best Hjs HI Hs R B.
    - exists m, best. auto.
    - apply StronglySorted_inv in Hs. destruct Hs as [Hs Hf]. cbn [scanB].
      assert (Hjs' : forall j, In j js -> nthZ b j = Some s) by (intros; apply Hjs; now right).
      assert (HI' : forall j : Z, In j js -> Ix s) by (intros j' F; apply (HI j'); now right).
      assert (Ej : nthZ b j = Some s) by (apply Hjs; now left).
      destruct R as (R1 & R2 & R3). destruct B as (B1 & B2).
      destruct (j <? blo) eqn:E1.
      + apply IH; [exact Hjs'|exact HI'|exact Hs| |].
        * split; [exact R1|]. split; [exact R2|]. intros j' k H' N. apply (R3 j' k H'). intros [F|F]; [|contradiction].
          subst j'. destruct H' as [(H1 & H2 & H3 & H4 & H5 & _) _]. lia.
        * split.
          -- destruct B1 as [B1|[B1 [B3|[B3 B4]]]]; [now left|right; auto|]. right. split; [exact B1|]. right.
             split; [exact B3|]. now inversion B4.
          -- intros i' j' k' H' P. apply (B2 i' j' k' H'). destruct P as [P|[P N]]; [now left|]. right. split; [exact P|].
             intros [F|F]; [|contradiction]. destruct H' as [(H1 & H2 & H3 & H4 & H5 & _) _]. lia.
      + destruct (bhi <=? j) eqn:E2.
        * exists m, best. split; [reflexivity|].
          assert (Far : forall j', In j' (j :: js) -> bhi <= j').
          { intros j' [F|F]; [lia|]. rewrite Forall_forall in Hf. specialize (Hf j' F). lia. }
          split.
          -- split; [exact R1|]. split; [exact R2|]. intros j' k H' _. apply (R3 j' k H'). intro F. apply Far in F.
             destruct H' as [(H1 & H2 & H3 & H4 & H5 & _) _]. lia.
          -- split.
             ++ destruct B1 as [B1|[B1 [B3|[B3 B4]]]]; [now left|right; auto|]. right. split; [exact B1|]. right. auto.
             ++ intros i' j' k' H' P. apply (B2 i' j' k' H'). destruct P as [P|[P N]]; [now left|]. right. split; [exact P|].
                intro F. apply Far in F. destruct H' as [(H1 & H2 & H3 & H4 & H5 & _) _]. lia.
        * pose proof (wrun_step s i j j2len Hi ltac:(lia) Es Ej (HI j ltac:(now left)) R0) as W.
          set (k := get2 j2len (j - 1) + 1) in *.
          assert (Kmax : forall k', irun (i - k' + 1) (j - k' + 1) k' -> k' <= k) by (intros k' H'; exact (irun_step i j j2len k' R0 H')).
          assert (Kpos : 1 <= k) by (destruct W as [(_ & _ & _ & _ & K & _) _]; lia).
          apply IH; [exact Hjs'|exact HI'|exact Hs| |].
          -- split; [|split].
             ++ intro j'. cbn [get2]. destruct (j =? j'); [lia|apply R1].
             ++ intros j' K. cbn [get2] in *. destruct (j =? j') eqn:E; [|now apply R2]. assert (j = j') by lia. now subst.
             ++ intros j' k' H' N. cbn [get2]. destruct (j =? j') eqn:E.
                ** assert (j = j') by lia. subst. now apply Kmax.
                ** apply (R3 j' k' H'). intros [F|F]; [lia|contradiction].
          -- assert (Hnew : forall i' j' k', irun i' j' k' -> i' + k' - 1 = i /\ j' + k' - 1 = j -> k' <= k).
             { intros i' j' k' H' [Ei Ej']. apply Kmax. replace (i - k' + 1) with i' by lia. now replace (j - k' + 1) with j' by lia. }
             destruct (mSize best <? k) eqn:E3.
             ++ split.
                ** right. cbn [mA mB mSize]. split; [exact W|]. right. split; [lia|]. eapply Forall_impl; [|exact Hf].
                   cbv beta. intros. lia.
                ** cbn [mA mB mSize]. intros i' j' k' H' P.
                   destruct (Z.eq_dec (i' + k' - 1) i) as [Ei|Ei], (Z.eq_dec (j' + k' - 1) j) as [Ej'|Ej'];
                     [|left|left|left].
                   --- specialize (Hnew i' j' k' H' (conj Ei Ej')). destruct (Z.eq_dec k' k); [right|lia].
                       split; [assumption|]. right. lia.
                   --- destruct (B2 i' j' k' H') as [L|[L _]]; [|lia|lia]. right. split; [exact Ei|].
                       intros [F|F]; [lia|]. destruct P as [P|[_ P]]; [lia|contradiction].
                   --- destruct (B2 i' j' k' H') as [L|[L _]]; [|lia|lia]. left. destruct P as [P|[P _]]; lia.
                   --- destruct (B2 i' j' k' H') as [L|[L _]]; [|lia|lia]. left. destruct P as [P|[P _]]; lia.
             ++ split.
                ** destruct B1 as [B1|[B1 [B3|[B3 B4]]]]; [now left|right; auto|]. right. split; [exact B1|]. right.
                   split; [exact B3|]. now inversion B4.
                ** intros i' j' k' H' P.
                   destruct (Z.eq_dec (i' + k' - 1) i) as [Ei|Ei], (Z.eq_dec (j' + k' - 1) j) as [Ej'|Ej'].
                   --- specialize (Hnew i' j' k' H' (conj Ei Ej')). destruct (Z.eq_dec k' (mSize best)) as [Ek|Ek]; [right|lia].
                       split; [exact Ek|]. destruct B1 as [B1|[B1 [B3|[B3 B4]]]].
                       +++ rewrite B1 in E3. cbn [mSize] in E3. lia.
                       +++ left. lia.
                       +++ inversion B4; subst. right. lia.
                   --- apply (B2 i' j' k' H'). right. split; [exact Ei|]. intros [F|F]; [lia|].
                       destruct P as [P|[_ P]]; [lia|contradiction].
                   --- apply (B2 i' j' k' H'). left. destruct P as [P|[P _]]; lia.
                   --- apply (B2 i' j' k' H'). left. destruct P as [P|[P _]]; lia.
  Qed.

  (** What the search finds: a run, as long as every run of indexed lines, and the earliest of those *)
  Definition found (m : Match) : Prop :=
    (m = mkMatch alo blo 0 \/ irun (mA m) (mB m) (mSize m)) /\
    (forall i' j' k', irun i' j' k' -> k' < mSize m \/ (k' = mSize m /\ earlier (mA m) (mB m) i' j')).

  Lemma scanA_ok : forall fuel i j2len best, alo <= i -> i + Z.of_nat fuel = ahi ->
    row (i - 1) [] j2len -> bestIs (i - 1) [] best ->
    exists m, scanA a b2j blo bhi fuel i j2len best = Some m /\ found m.
  Proof.
    induction fuel as [|fuel IH]; intros i j2len best Hi Hf R B.
    - exists best. split; [reflexivity|]. destruct B as [B1 B2]. split.
      + destruct B1 as [B1|[B1 _]]; auto.
      + intros i' j' k' H'. apply (B2 i' j' k' H'). destruct H' as [(H1 & H2 & H3 & H4 & H5 & _) _].
        destruct (Z.eq_dec (i' + k' - 1) (i - 1)); [right; split; [assumption|easy]|left; lia].
    - cbn [scanA]. destruct (nthZ_some _ a i ltac:(lia)) as [s Es]. rewrite Es. cbn [obind].
      destruct (scanB_ok s i ltac:(lia) Es j2len R (get b2j s) [] best (sound s) (only s) (sorted s)) as (m' & best' & E & R' & B').
      + split; [|split].
        * intro. cbn. lia.
        * intros j K. cbn in K. lia.
        * intros j k H' N. exfalso. apply N. destruct H' as [(H1 & H2 & H3 & H4 & H5 & H6) H7].
          assert (Ea : nthZ a (i - k + 1 + (k - 1)) = Some s) by (replace (i - k + 1 + (k - 1)) with i by lia; exact Es).
          pose proof (H7 (k - 1) s ltac:(lia) Ea) as HI. apply complete; [exact HI|].
          rewrite (H6 (k - 1) ltac:(lia)) in Ea. now replace (j - k + 1 + (k - 1)) with j in Ea by lia.
      + destruct B as [B1 B2]. split.
        * destruct B1 as [B1|[B1 B3]]; [now left|]. right. split; [exact B1|]. left. lia.
        * intros i' j' k' H' P. apply (B2 i' j' k' H'). destruct P as [P|[P N]].
          -- destruct (Z.eq_dec (i' + k' - 1) (i - 1)); [right; split; [assumption|easy]|left; lia].
          -- exfalso. apply N. destruct H' as [(H1 & H2 & H3 & H4 & H5 & H6) H7].
             assert (Ea : nthZ a (i' + (k' - 1)) = Some s) by (replace (i' + (k' - 1)) with i by lia; exact Es).
             pose proof (H7 (k' - 1) s ltac:(lia) Ea) as HI. apply complete; [exact HI|].
             rewrite (H6 (k' - 1) ltac:(lia)) in Ea. now replace (j' + (k' - 1)) with (j' + k' - 1) in Ea by lia.
      + rewrite E. cbv beta iota. apply IH; [lia|lia| |].
        * now replace (i + 1 - 1) with i by lia.
        * now replace (i + 1 - 1) with i by lia.
  Qed.

  (** Extending: a longer run, from no earlier than the window *)
  Definition inWindow (m : Match) : Prop := (mSize m = 0 /\ alo <= mA m <= ahi /\ blo <= mB m <= bhi) \/ wrun (mA m) (mB m) (mSize m).
  Definition extends (m m' : Match) : Prop :=
    mA m' <= mA m /\ mA m + mSize m <= mA m' + mSize m' /\ mA m - mA m' = mB m - mB m'.

  Lemma inWindow_bounds : forall m, inWindow m ->
    alo <= mA m /\ mA m + mSize m <= ahi /\ blo <= mB m /\ mB m + mSize m <= bhi /\ 0 <= mSize m.
  Proof. intros m [(H1 & H2 & H3)|(H1 & H2 & H3 & H4 & H5 & _)]; lia. Qed.

  Lemma extendLeft_ok : forall junk fuel m, inWindow m -> mA m - alo < Z.of_nat fuel ->
    exists m', extendLeft a b bJunk alo blo fuel junk m = Some m' /\ inWindow m' /\ extends m m' /\
      (mA m' = alo \/ mB m' = blo \/ exists x y, nthZ a (mA m' - 1) = Some x /\ nthZ b (mB m' - 1) = Some y /\
         (isBJunk bJunk y = junk -> x <> y)).
  Proof.
    intros junk. induction fuel as [|fuel IH]; intros m Hw Hf; pose proof (inWindow_bounds m Hw) as (W1 & W2 & W3 & W4 & W5).
    - lia.
    - cbn [extendLeft]. destruct (alo <? mA m) eqn:E1; [destruct (blo <? mB m) eqn:E2|]; cbn [andb].
      + destruct (nthZ_some _ b (mB m - 1) ltac:(lia)) as [y Ey]. destruct (nthZ_some _ a (mA m - 1) ltac:(lia)) as [x Ex].
        rewrite Ey, Ex. cbn [obind]. destruct (Bool.eqb (isBJunk bJunk y) junk) eqn:Ej; [destruct (streq x y) eqn:E|]; cbn [andb].
        * apply streq_eq in E. subst y.
          assert (Hw' : inWindow (mkMatch (mA m - 1) (mB m - 1) (mSize m + 1))).
          { right. cbn [mA mB mSize]. repeat split; try lia. intros d Hd. destruct (Z.eq_dec d 0) as [Ed|Ed].
            - subst d. rewrite !Z.add_0_r. congruence.
            - destruct Hw as [(H1 & _)|(_ & _ & _ & _ & _ & H6)]; [lia|]. specialize (H6 (d - 1) ltac:(lia)).
              replace (mA m - 1 + d) with (mA m + (d - 1)) by lia. now replace (mB m - 1 + d) with (mB m + (d - 1)) by lia. }
          destruct (IH _ Hw') as (m' & E' & Hm' & X & St); [cbn [mA]; lia|]. exists m'. split; [exact E'|]. split; [exact Hm'|].
          split; [|exact St]. destruct X as (X1 & X2 & X3). cbn [mA mB mSize] in *. repeat split; lia.
        * exists m. split; [reflexivity|]. split; [exact Hw|]. split; [repeat split; lia|]. right. right. exists x, y.
          split; [exact Ex|]. split; [exact Ey|]. intros _ F. apply streq_eq in F. congruence.
        * exists m. split; [reflexivity|]. split; [exact Hw|]. split; [repeat split; lia|]. right. right. exists x, y.
          split; [exact Ex|]. split; [exact Ey|]. intros F _. rewrite F in Ej. now rewrite eqb_reflx in Ej.
      + exists m. split; [reflexivity|]. split; [exact Hw|]. split; [repeat split; lia|]. right. left. lia.
      + exists m. split; [reflexivity|]. split; [exact Hw|]. split; [repeat split; lia|]. left. lia.
  Qed.

  Lemma extendRight_ok : forall junk fuel m, inWindow m -> ahi - (mA m + mSize m) < Z.of_nat fuel ->
    exists m', extendRight a b bJunk ahi bhi fuel junk m = Some m' /\ inWindow m' /\ extends m m' /\ mA m' = mA m /\
      (mA m' + mSize m' = ahi \/ mB m' + mSize m' = bhi \/
       exists x y, nthZ a (mA m' + mSize m') = Some x /\ nthZ b (mB m' + mSize m') = Some y /\ (isBJunk bJunk y = junk -> x <> y)).
  Proof.
    intros junk. induction fuel as [|fuel IH]; intros m Hw Hf; pose proof (inWindow_bounds m Hw) as (W1 & W2 & W3 & W4 & W5).
    - lia.
    - cbn [extendRight]. destruct (mA m + mSize m <? ahi) eqn:E1; [destruct (mB m + mSize m <? bhi) eqn:E2|]; cbn [andb].
      + destruct (nthZ_some _ b (mB m + mSize m) ltac:(lia)) as [y Ey]. destruct (nthZ_some _ a (mA m + mSize m) ltac:(lia)) as [x Ex].
        rewrite Ey, Ex. cbn [obind]. destruct (Bool.eqb (isBJunk bJunk y) junk) eqn:Ej; [destruct (streq x y) eqn:E|]; cbn [andb].
        * apply streq_eq in E. subst y.
          assert (Hw' : inWindow (mkMatch (mA m) (mB m) (mSize m + 1))).
          { right. cbn [mA mB mSize]. repeat split; try lia. intros d Hd. destruct (Z.eq_dec d (mSize m)) as [Ed|Ed].
            - subst d. congruence.
            - destruct Hw as [(H1 & _)|(_ & _ & _ & _ & _ & H6)]; [lia|]. apply H6. lia. }
          destruct (IH _ Hw') as (m' & E' & Hm' & X & EA & St); [cbn [mA mSize]; lia|]. exists m'. split; [exact E'|].
          split; [exact Hm'|]. destruct X as (X1 & X2 & X3). cbn [mA mB mSize] in *. split; [repeat split; lia|]. split; [lia|exact St].
        * exists m. split; [reflexivity|]. split; [exact Hw|]. split; [repeat split; lia|]. split; [reflexivity|]. right. right.
          exists x, y. split; [exact Ex|]. split; [exact Ey|]. intros _ F. apply streq_eq in F. congruence.
        * exists m. split; [reflexivity|]. split; [exact Hw|]. split; [repeat split; lia|]. split; [reflexivity|]. right. right.
          exists x, y. split; [exact Ex|]. split; [exact Ey|]. intros F _. rewrite F in Ej. now rewrite eqb_reflx in Ej.
      + exists m. split; [reflexivity|]. split; [exact Hw|]. split; [repeat split; lia|]. split; [reflexivity|]. right. left. lia.
      + exists m. split; [reflexivity|]. split; [exact Hw|]. split; [repeat split; lia|]. split; [reflexivity|]. left. lia.
  Qed.

  Lemma extends_trans : forall x y z, extends x y -> extends y z -> extends x z.
  Proof. intros x y z (A1 & A2 & A3) (B1 & B2 & B3). repeat split; lia. Qed.

  Definition stopRight (junk : bool) (m : Match) : Prop :=
    mA m + mSize m = ahi \/ mB m + mSize m = bhi \/
    exists x y, nthZ a (mA m + mSize m) = Some x /\ nthZ b (mB m + mSize m) = Some y /\ (isBJunk bJunk y = junk -> x <> y).

  Theorem findLongestMatch_ok : exists m0 m1 m,
    findLongestMatch a b bJunk b2j alo ahi blo bhi = Some m /\ found m0 /\ inWindow m /\ extends m0 m1 /\ extends m1 m /\
    stopRight false m1 /\ stopRight true m.
  Proof.
    unfold findLongestMatch. destruct (ahi <? alo) eqn:E; [lia|].
    destruct (scanA_ok (Z.to_nat (ahi - alo)) alo [] (mkMatch alo blo 0)) as (m0 & E0 & F0).
    - lia.
    - lia.
    - split; [intro; cbn; lia|]. split; [intros j K; cbn in K; lia|]. intros j k [(H1 & H2 & H3 & H4 & H5 & _) _]. lia.
    - split; [now left|]. intros i' j' k' [(H1 & H2 & H3 & H4 & H5 & _) _] P. lia.
    - assert (W0 : inWindow m0) by (destruct F0 as [[->|[W _]] _]; [left; cbn; lia|now right]).
      pose proof (inWindow_bounds m0 W0) as B0.
      rewrite E0. cbn [obind].
      destruct (extendLeft_ok false (S (Z.to_nat (ahi - alo))) m0 W0) as (m1 & E1 & W1 & X1 & _); [lia|].
      rewrite E1. cbn [obind]. pose proof (inWindow_bounds m1 W1) as B1.
      destruct (extendRight_ok false (S (Z.to_nat (ahi - alo))) m1 W1) as (m2 & E2 & W2 & X2 & _ & S2); [lia|].
      rewrite E2. cbn [obind]. pose proof (inWindow_bounds m2 W2) as B2.
      destruct (extendLeft_ok true (S (Z.to_nat (ahi - alo))) m2 W2) as (m3 & E3 & W3 & X3 & _); [lia|].
      rewrite E3. cbn [obind]. pose proof (inWindow_bounds m3 W3) as B3.
      destruct (extendRight_ok true (S (Z.to_nat (ahi - alo))) m3 W3) as (m4 & E4 & W4 & X4 & _ & S4); [lia|].
      exists m0, m2, m4. split; [exact E4|]. split; [exact F0|]. split; [exact W4|].
      split; [eapply extends_trans; [exact X1|exact X2]|]. split; [eapply extends_trans; [exact X3|exact X4]|]. auto.
  Qed.

  (** Extending adds the lines it is about, and stops at both ends *)
  Definition added (junk : bool) (m' : Match) (p : Z) : Prop := exists y, nthZ b (mB m' + (p - mA m')) = Some y /\ isBJunk bJunk y = junk.
  Definition stopLeft (junk : bool) (m : Match) : Prop :=
    mA m = alo \/ mB m = blo \/
    exists x y, nthZ a (mA m - 1) = Some x /\ nthZ b (mB m - 1) = Some y /\ (isBJunk bJunk y = junk -> x <> y).
  Definition wide (junk : bool) (m m' : Match) : Prop :=
    extends m m' /\ inWindow m' /\ (forall p, mA m' <= p < mA m \/ mA m + mSize m <= p < mA m' + mSize m' -> added junk m' p) /\
    stopLeft junk m' /\ stopRight junk m'.
  Lemma extendLeft_added : forall junk fuel m m', extendLeft a b bJunk alo blo fuel junk m = Some m' ->
    mA m' + mSize m' = mA m + mSize m /\ mA m' - mA m = mB m' - mB m /\ forall p, mA m' <= p < mA m -> added junk m' p.
  Proof.
    intros junk. induction fuel as [|fuel IH]; intros m m' H; cbn [extendLeft] in H; [discriminate|].
    destruct ((alo <? mA m) && (blo <? mB m)); [|injection H as <-; split; [lia|]; split; [lia|]; intros p Hp; lia].
    destruct (nthZ b (mB m - 1)) as [y|] eqn:Ey; [|discriminate]. cbn [obind] in H.
    destruct (nthZ a (mA m - 1)) as [x|]; [|discriminate]. cbn [obind] in H.
    destruct (Bool.eqb (isBJunk bJunk y) junk && streq x y) eqn:E; [|injection H as <-; split; [lia|]; split; [lia|]; intros p Hp; lia].
    destruct (IH _ _ H) as (I1 & I2 & I3). cbn [mA mB mSize] in *. split; [lia|]. split; [lia|]. intros p Hp.
    destruct (Z.eq_dec p (mA m - 1)) as [->|]; [|apply I3; lia]. exists y. apply andb_true_iff in E. split; [|now apply eqb_prop].
    rewrite <- Ey. f_equal. lia.
  Qed.
  Lemma extendRight_added : forall junk fuel m m', extendRight a b bJunk ahi bhi fuel junk m = Some m' ->
    mA m' = mA m /\ mB m' = mB m /\ forall p, mA m + mSize m <= p < mA m' + mSize m' -> added junk m' p.
  Proof.
    intros junk. induction fuel as [|fuel IH]; intros m m' H; cbn [extendRight] in H; [discriminate|].
    destruct ((mA m + mSize m <? ahi) && (mB m + mSize m <? bhi)); [|injection H as <-; split; [lia|]; split; [lia|]; intros p Hp; lia].
    destruct (nthZ b (mB m + mSize m)) as [y|] eqn:Ey; [|discriminate]. cbn [obind] in H.
    destruct (nthZ a (mA m + mSize m)) as [x|]; [|discriminate]. cbn [obind] in H.
    destruct (Bool.eqb (isBJunk bJunk y) junk && streq x y) eqn:E; [|injection H as <-; split; [lia|]; split; [lia|]; intros p Hp; lia].
    destruct (IH _ _ H) as (I1 & I2 & I3). cbn [mA mB mSize] in *. split; [lia|]. split; [lia|]. intros p Hp.
    destruct (Z.eq_dec p (mA m + mSize m)) as [->|]; [|apply I3; lia]. exists y. apply andb_true_iff in E. split; [|now apply eqb_prop].
    rewrite <- Ey. f_equal. lia.
  Qed.
  Lemma wide_ok : forall junk fuel m, inWindow m -> ahi - alo < Z.of_nat fuel -> exists m1 m2,
    extendLeft a b bJunk alo blo fuel junk m = Some m1 /\ extendRight a b bJunk ahi bhi fuel junk m1 = Some m2 /\ wide junk m m2.
  Proof.
    intros junk fuel m W F. pose proof (inWindow_bounds m W) as B.
    destruct (extendLeft_ok junk fuel m W) as (m1 & E1 & W1 & X1 & S1); [lia|]. pose proof (inWindow_bounds m1 W1) as B1.
    destruct (extendRight_ok junk fuel m1 W1) as (m2 & E2 & W2 & X2 & EA & S2); [lia|].
    exists m1, m2. split; [exact E1|]. split; [exact E2|].
    destruct (extendLeft_added _ _ _ _ E1) as (A1 & A2 & A3). destruct (extendRight_added _ _ _ _ E2) as (C1 & C2 & C3).
    split; [eapply extends_trans; eassumption|]. split; [exact W2|]. split; [|split; [|exact S2]].
    - intros p [Hp|Hp].
      + destruct (A3 p ltac:(lia)) as (y & Ey & Ej). exists y. split; [|exact Ej]. rewrite <- Ey. f_equal. lia.
      + apply C3. lia.
    - unfold stopLeft in *. rewrite C1, C2. exact S1.
  Qed.
  Theorem findLongestMatch_wide : exists m0 m1 m,
    findLongestMatch a b bJunk b2j alo ahi blo bhi = Some m /\ found m0 /\ inWindow m0 /\ wide false m0 m1 /\ wide true m1 m.
  Proof.
    unfold findLongestMatch. destruct (ahi <? alo) eqn:E; [lia|].
    destruct (scanA_ok (Z.to_nat (ahi - alo)) alo [] (mkMatch alo blo 0)) as (m0 & E0 & F0).
    - lia.
    - lia.
    - split; [intro; cbn; lia|]. split; [intros j K; cbn in K; lia|]. intros j k [(H1 & H2 & H3 & H4 & H5 & _) _]. lia.
    - split; [now left|]. intros i' j' k' [(H1 & H2 & H3 & H4 & H5 & _) _] P. lia.
    - assert (W0 : inWindow m0) by (destruct F0 as [[->|[W _]] _]; [left; cbn; lia|now right]).
      rewrite E0. cbn [obind].
      destruct (wide_ok false (S (Z.to_nat (ahi - alo))) m0 W0) as (m1 & m2 & E1 & E2 & D1); [lia|]. rewrite E1. cbn [obind]. rewrite E2. cbn [obind].
      destruct (wide_ok true (S (Z.to_nat (ahi - alo))) m2) as (m3 & m4 & E3 & E4 & D2); [apply D1|lia|]. rewrite E3. cbn [obind].
      exists m0, m2, m4. auto.
  Qed.
End LongestProofs.
