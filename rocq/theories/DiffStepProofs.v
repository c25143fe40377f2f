(** Proofs that the matching blocks are those of the method of Ratcliff and Obershelp. *)
From Verif Require Import Base DiffModel DiffSpec DiffProofs DiffBlockProofs.

Lemma part_one : forall l i x, nthZ l i = Some x -> part l i (i + 1) = [x].
Proof.
  intros l i x H. pose proof (nthZ_bound _ l i x H) as B. apply nthZ_ext. intros d Hd.
  destruct (Z.eq_dec d 0) as [->|].
  - rewrite nthZ_part by lia. now rewrite Z.add_0_r.
  - rewrite !nthZ_none; [reflexivity| |]; right; [cbn; lia|rewrite lenZ_part; lia].
Qed.
Lemma nthZ_In : forall (A : Type) (l : list A) i x, nthZ l i = Some x -> In x l.
Proof. intros A l i x H. unfold nthZ in H. destruct (i <? 0); [discriminate|]. exact (nth_error_In _ _ H). Qed.
Lemma In_nthZ : forall (A : Type) (l : list A) x, In x l -> exists d, nthZ l d = Some x.
Proof.
  intros A l x H. apply In_nth_error in H. destruct H as [n H]. exists (Z.of_nat n). unfold nthZ. destruct (Z.ltb_spec (Z.of_nat n) 0); [lia|].
  now rewrite Nat2Z.id.
Qed.
Lemma forall_part : forall P l i j, 0 <= i -> j <= lenZ l -> (Forall P (part l i j) <-> forall p x, i <= p < j -> nthZ l p = Some x -> P x).
Proof.
  intros P l i j Hi Hj. destruct (Z_le_gt_dec j i) as [L|G].
  - rewrite part_empty by lia. split; [intros _ p x Hp; lia|constructor].
  - pose proof (lenZ_part l i j ltac:(lia) ltac:(lia) ltac:(lia)) as N. split.
    + intros F p x Hp E. rewrite Forall_forall in F. apply F. apply nthZ_In with (i := p - i). rewrite nthZ_part by lia.
      now replace (i + (p - i)) with p by lia.
    + intro H. apply Forall_forall. intros x I. apply In_nthZ in I. destruct I as (d & E). pose proof (nthZ_bound _ _ _ _ E) as B.
      rewrite nthZ_part in E by lia. apply (H (i + d)); [lia|exact E].
Qed.

Lemma seq_shift_from : forall k s n, seq (k + s) n = map (fun d => (k + d)%nat) (seq s n).
Proof. intros k s n. revert s. induction n as [|n IH]; intro s; [reflexivity|]. cbn [seq map]. f_equal. rewrite <- IH. f_equal. lia. Qed.

Section StepProofs.
  Variable a b : list bytes.
  Variable isJunk : option (bytes -> bool).
  Variable autoJunk : bool.
  Let junk := fst (chainB isJunk autoJunk b).
  Let b2j := snd (chainB isJunk autoJunk b).
  Notation counts := (interesting isJunk autoJunk b).
  Notation J := (junk_line isJunk).

  Lemma isBJunk_line : forall y j, nthZ b j = Some y -> (isBJunk junk y = true <-> J y).
  Proof.
    intros y j H. unfold isBJunk. rewrite inb_in. unfold junk. rewrite junk_in. unfold junk_line. split.
    - intros [_ (f & -> & E)]. exact E.
    - destruct isJunk as [f|]; [|intros []]. intro E. split; [now apply nthZ_In with (1 := H)|eauto].
  Qed.

  Section Window.
    Variables alo ahi blo bhi : Z.
    Hypothesis Wa : 0 <= alo /\ alo <= ahi /\ ahi <= lenZ a.
    Hypothesis Wb : 0 <= blo /\ blo <= bhi /\ bhi <= lenZ b.
    Notation run := (common_run a b alo ahi blo bhi).

    Lemma run_iff : forall i j k, run i j k <->
      (alo <= i /\ i + k <= ahi /\ blo <= j /\ j + k <= bhi /\ 0 <= k /\ forall d, 0 <= d < k -> nthZ a (i + d) = nthZ b (j + d)).
    Proof.
      intros i j k. unfold common_run. split; intros (H1 & H2 & H3 & H4 & H5 & H6); repeat (split; [assumption|]).
      - apply eq_part; try lia. exact H6.
      - apply eq_part; try lia. exact H6.
    Qed.
    Lemma inWindow_run : forall m, inWindow a b alo ahi blo bhi m -> run (mA m) (mB m) (mSize m).
    Proof.
      intros m H. apply run_iff. destruct H as [(E & H1 & H2)|(H1 & H2 & H3 & H4 & H5 & H6)].
      - rewrite E. repeat (split; [lia|]). intros d Hd. lia.
      - repeat (split; [lia|]). exact H6.
    Qed.
    Lemma run_irun : forall i j k, run i j k -> Forall counts (part a i (i + k)) -> 0 < k -> irun a b alo ahi blo bhi counts i j k.
    Proof.
      intros i j k H F K. apply run_iff in H. destruct H as (H1 & H2 & H3 & H4 & H5 & H6). split.
      - repeat (split; [lia|]). exact H6.
      - intros d s Hd E. rewrite forall_part in F by lia. apply (F (i + d)); [lia|exact E].
    Qed.
    Lemma found_core : forall m, inWindow a b alo ahi blo bhi m -> found a b alo ahi blo bhi counts m -> core a b counts alo ahi blo bhi m.
    Proof.
      intros m W [F1 F2]. split; [now apply inWindow_run|]. split.
      - destruct F1 as [->|[W' I]]; [cbn [mA mSize]; rewrite part_empty by lia; constructor|].
        destruct W' as (H1 & H2 & H3 & H4 & H5 & H6). apply forall_part; try lia. intros p x Hp E. apply (I (p - mA m)); [lia|].
        now replace (mA m + (p - mA m)) with p by lia.
      - intros i j k R C. destruct (Z_lt_ge_dec 0 k) as [L|G].
        + apply F2. now apply run_irun.
        + apply run_iff in R. destruct R as (H1 & H2 & H3 & H4 & H5 & H6). destruct F1 as [->|[W' I]].
          * right. cbn [mA mB mSize]. split; [lia|]. unfold earlier. lia.
          * left. destruct W' as (_ & _ & _ & _ & H & _). lia.
    Qed.

    (** [jk]: lines that are junk, or lines that are not *)
    Definition flagged (jk : bool) (s : bytes) : Prop := if jk then J s else ~ J s.
    Lemma flagged_iff : forall jk y j, nthZ b j = Some y -> (isBJunk junk y = jk <-> flagged jk y).
    Proof.
      intros jk y j E. unfold flagged. pose proof (isBJunk_line y j E) as I. destruct jk; [exact I|]. destruct (isBJunk junk y); intuition congruence.
    Qed.
    Lemma wide_widest : forall jk m m', inWindow a b alo ahi blo bhi m -> wide a b junk alo ahi blo bhi jk m m' ->
      widest a b (flagged jk) alo ahi blo bhi m m'.
    Proof.
      intros jk m m' W ((X1 & X2 & X3) & W' & Ad & SL & SR). pose proof (inWindow_run m' W') as R.
      pose proof (inWindow_bounds _ _ _ _ _ _ m W) as B. pose proof (inWindow_bounds _ _ _ _ _ _ m' W') as B'.
      pose proof (proj1 (run_iff _ _ _) R) as (_ & _ & _ & _ & _ & Q).
      assert (Fl : forall p x, mA m' <= p < mA m \/ mA m + mSize m <= p < mA m' + mSize m' -> nthZ a p = Some x -> flagged jk x).
      { intros p x Hp E. destruct (Ad p Hp) as (y & Ey & Ej). specialize (Q (p - mA m') ltac:(lia)).
        replace (mA m' + (p - mA m')) with p in Q by lia. rewrite E, Ey in Q. injection Q as ->. now apply (flagged_iff jk y _ Ey). }
      split; [exact X1|]. split; [exact X3|]. split; [exact X2|]. split; [exact R|].
      split; [apply forall_part; try lia; intros p x Hp; apply Fl; lia|].
      split; [apply forall_part; try lia; intros p x Hp; apply Fl; lia|]. split.
      - intros L1 L2 E F. destruct SL as [SL|[SL|(x & y & Ex & Ey & N)]]; [lia|lia|].
        replace (mA m') with (mA m' - 1 + 1) in E at 2 by lia. replace (mB m') with (mB m' - 1 + 1) in E at 2 by lia.
        replace (mA m') with (mA m' - 1 + 1) in F at 2 by lia.
        rewrite (part_one a _ x Ex), (part_one b _ y Ey) in E. rewrite (part_one a _ x Ex) in F. injection E as ->.
        apply N; [|reflexivity]. apply (flagged_iff jk y _ Ey). now inversion F.
      - intros L1 L2 E F. destruct SR as [SR|[SR|(x & y & Ex & Ey & N)]]; [lia|lia|].
        rewrite (part_one a _ x Ex), (part_one b _ y Ey) in E. rewrite (part_one a _ x Ex) in F. injection E as ->.
        apply N; [|reflexivity]. apply (flagged_iff jk y _ Ey). now inversion F.
    Qed.

    Theorem findLongestMatch_best : exists m, findLongestMatch a b junk b2j alo ahi blo bhi = Some m /\ best a b counts J alo ahi blo bhi m.
    Proof.
      destruct (findLongestMatch_wide a b junk b2j alo ahi blo bhi Wa Wb counts) as (m0 & m1 & m & E & F & W0 & D1 & D2).
      - intros s j H. apply b2j_get in H. apply H.
      - intro s. apply b2j_sorted.
      - intros s j H. apply b2j_get in H. apply H.
      - intros s j H1 H2. apply b2j_get. auto.
      - exists m. split; [exact E|]. exists m0, m1. split; [now apply found_core|]. split; [exact (wide_widest false _ _ W0 D1)|].
        exact (wide_widest true _ _ ltac:(apply D1) D2).
    Qed.
    Lemma best_run : forall m, best a b counts J alo ahi blo bhi m -> run (mA m) (mB m) (mSize m).
    Proof. intros m (m0 & m1 & _ & _ & D). apply D. Qed.
  End Window.

  Lemma matched_empty : forall alo ahi blo bhi, 0 <= alo <= ahi -> ahi <= lenZ a -> 0 <= blo <= bhi -> bhi <= lenZ b -> alo = ahi \/ blo = bhi ->
    matched a b counts J alo ahi blo bhi [].
  Proof.
    intros alo ahi blo bhi H1 H2 H3 H4 H5. destruct (findLongestMatch_best alo ahi blo bhi ltac:(lia) ltac:(lia)) as (m & _ & Hm).
    apply matched_none with (m := m); [exact Hm|]. apply best_run in Hm; try lia. destruct Hm as (R1 & R2 & R3 & R4 & R5 & _). lia.
  Qed.
  Lemma matchBlocks_matched : forall fuel alo ahi blo bhi acc,
    0 <= alo /\ alo <= ahi /\ ahi <= lenZ a -> 0 <= blo /\ blo <= bhi /\ bhi <= lenZ b -> ahi - alo < Z.of_nat fuel ->
    exists l, matchBlocks fuel a b junk b2j alo ahi blo bhi acc = Some (acc ++ l) /\ matched a b counts J alo ahi blo bhi l.
  Proof.
    induction fuel as [|fuel IH]; intros alo ahi blo bhi acc Ha Hb Hf; [lia|].
    cbn [matchBlocks]. destruct (findLongestMatch_best alo ahi blo bhi Ha Hb) as (m & E & Hm).
    rewrite E. cbn [obind]. pose proof (best_run alo ahi blo bhi m Hm) as (R1 & R2 & R3 & R4 & R5 & _).
    destruct (0 <? mSize m) eqn:Ek; [|exists []; rewrite app_nil_r; split; [reflexivity|]; apply matched_none with (m := m); [exact Hm|lia]].
    assert (L : exists l1, (if (alo <? mA m) && (blo <? mB m) then matchBlocks fuel a b junk b2j alo (mA m) blo (mB m) acc
                else Some acc) = Some (acc ++ l1) /\ matched a b counts J alo (mA m) blo (mB m) l1).
    { destruct ((alo <? mA m) && (blo <? mB m)) eqn:E1.
      - apply andb_true_iff in E1. apply IH; lia.
      - exists []. rewrite app_nil_r. split; [reflexivity|]. apply matched_empty; lia. }
    destruct L as (l1 & E1 & C1). rewrite E1. cbn [obind].
    destruct ((mA m + mSize m <? ahi) && (mB m + mSize m <? bhi)) eqn:E2.
    - destruct (IH (mA m + mSize m) ahi (mB m + mSize m) bhi ((acc ++ l1) ++ [m])) as (l2 & El & C3); try lia.
      rewrite El. exists (l1 ++ m :: l2). split; [now rewrite <- !app_assoc|]. apply matched_some; try assumption. lia.
    - exists (l1 ++ [m]). split; [now rewrite app_assoc|]. apply matched_some; try assumption; [lia|]. apply matched_empty; lia.
  Qed.

  Lemma pairs_merge : forall i j k k' r, 0 <= k -> 0 <= k' -> pairs (mkMatch i j (k + k') :: r) = pairs (mkMatch i j k :: mkMatch (i + k) (j + k) k' :: r).
  Proof.
    intros i j k k' r H H'. unfold pairs. cbn [flat_map mA mB mSize]. rewrite app_assoc. f_equal.
    rewrite Z2Nat.inj_add by lia. rewrite seq_app, map_app. f_equal. cbn [Nat.add].
    rewrite <- (Nat.add_0_r (Z.to_nat k)) at 1. rewrite (seq_shift_from (Z.to_nat k)). rewrite map_map. apply map_ext. intro d. f_equal; lia.
  Qed.
  Lemma collapse_pairs : forall l i j k, 0 <= k -> Forall (fun m => 0 <= mSize m) l -> pairs (collapse i j k l) = pairs (mkMatch i j k :: l).
  Proof.
    assert (P0 : forall i j k l, 0 <= k -> pairs ((if 0 <? k then [mkMatch i j k] else []) ++ l) = pairs (mkMatch i j k :: l)).
    { intros i j k l H. destruct (0 <? k) eqn:E; [reflexivity|]. replace k with 0 by lia. reflexivity. }
    induction l as [|m l IH]; intros i j k Hk F; cbn [collapse].
    - rewrite <- (app_nil_r (if 0 <? k then [mkMatch i j k] else [])). now apply P0.
    - inversion F as [|? ? F1 F2]; subst. destruct ((i + k =? mA m) && (j + k =? mB m)) eqn:E.
      + apply andb_true_iff in E. rewrite IH by (try assumption; lia). rewrite pairs_merge by lia.
        replace (i + k) with (mA m) by lia. replace (j + k) with (mB m) by lia. destruct m. reflexivity.
      + rewrite P0 by exact Hk. unfold pairs in *. cbn [flat_map]. f_equal. rewrite IH by assumption. destruct m. reflexivity.
  Qed.
  Lemma matched_sizes : forall alo ahi blo bhi l, matched a b counts J alo ahi blo bhi l -> Forall (fun m => 0 <= mSize m) l.
  Proof.
    intros alo ahi blo bhi l H. induction H as [|alo ahi blo bhi m l r B K _ IH1 _ IH2]; [constructor|].
    apply Forall_app. split; [exact IH1|]. constructor; [lia|exact IH2].
  Qed.
  Theorem computeBlocks_matched : exists bl l, computeBlocks a b junk b2j = Some bl /\
    matched a b counts J 0 (lenZ a) 0 (lenZ b) l /\ pairs bl = pairs l.
  Proof.
    unfold computeBlocks. pose proof (lenZ_nonneg _ a). pose proof (lenZ_nonneg _ b).
    destruct (matchBlocks_matched (S (List.length a)) 0 (lenZ a) 0 (lenZ b) []) as (l & E & C); try lia; [unfold lenZ; lia|].
    rewrite E. cbn [obind app]. eexists. exists l. split; [reflexivity|]. split; [exact C|].
    unfold pairs. rewrite flat_map_app. cbn [flat_map mSize Z.to_nat seq map app]. rewrite app_nil_r.
    fold (pairs (collapse 0 0 0 l)). rewrite collapse_pairs; [reflexivity|lia|]. eapply matched_sizes. exact C.
  Qed.
End StepProofs.
