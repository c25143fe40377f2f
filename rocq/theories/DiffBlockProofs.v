(** Proofs about the index of b, the matching blocks and the op codes. *)
From Coq Require Import Sorted.
From Verif Require Import Base DiffModel DiffSpec DiffProofs.

(** * The index *)
Lemma get_put : forall m s v t, get (put m s v) t = if streq s t then v else get m t.
Proof.
  induction m as [|[k w] m IH]; intros s v t; cbn [put get].
  - destruct (streq s t); reflexivity.
  - destruct (streq k s) eqn:E.
    + apply streq_eq in E. subst k. cbn [get]. destruct (streq s t); reflexivity.
    + cbn [get]. rewrite IH. destruct (streq k t) eqn:E2; [|reflexivity].
      apply streq_eq in E2. subst t. destruct (streq s k) eqn:E3; [|reflexivity].
      apply streq_eq in E3. subst. now rewrite streq_refl in E.
Qed.
Lemma put_keys : forall m s v t, In t (map fst (put m s v)) <-> s = t \/ In t (map fst m).
Proof.
  induction m as [|[k w] m IH]; intros s v t; cbn [put map fst In].
  - tauto.
  - destruct (streq k s) eqn:E; cbn [map fst In].
    + apply streq_eq in E. subst. tauto.
    + rewrite IH. tauto.
Qed.
Lemma put_nodup : forall m s v, NoDup (map fst m) -> NoDup (map fst (put m s v)).
Proof.
  induction m as [|[k w] m IH]; intros s v H; cbn [put map fst].
  - repeat constructor. easy.
  - cbn [map fst] in H. apply NoDup_cons_iff in H. destruct H as [N H].
    destruct (streq k s) eqn:E; cbn [map fst]; constructor; try assumption.
    + intro F. apply put_keys in F. destruct F as [F|F]; [|contradiction]. subst. now rewrite streq_refl in E.
    + now apply IH.
Qed.

(** The positions of s in b, numbered from i *)
Fixpoint pos (i : Z) (b : list bytes) (s : bytes) : list Z :=
  match b with
  | [] => []
  | x :: r => (if streq x s then [i] else []) ++ pos (i + 1) r s
  end.
Lemma indexLines_get : forall b i m s, get (indexLines i b m) s = get m s ++ pos i b s.
Proof.
  induction b as [|x b IH]; intros i m s; cbn [indexLines pos]; [now rewrite app_nil_r|].
  rewrite IH, get_put. destruct (streq x s) eqn:E; [|reflexivity].
  apply streq_eq in E. subst. now rewrite <- app_assoc.
Qed.
Lemma indexLines_keys : forall b i m s, In s (map fst (indexLines i b m)) <-> In s (map fst m) \/ In s b.
Proof.
  induction b as [|x b IH]; intros i m s; cbn [indexLines In]; [tauto|]. rewrite IH, put_keys. tauto.
Qed.
Lemma indexLines_nodup : forall b i m, NoDup (map fst m) -> NoDup (map fst (indexLines i b m)).
Proof. induction b as [|x b IH]; intros i m H; cbn [indexLines]; [exact H|]. apply IH. now apply put_nodup. Qed.

Lemma pos_in : forall b i s j, In j (pos i b s) <-> (i <= j /\ nthZ b (j - i) = Some s).
Proof.
  induction b as [|x b IH]; intros i s j; cbn [pos].
  - split; [intros []|]. intros [_ H]. apply nthZ_bound in H. cbn in H. lia.
  - rewrite in_app_iff, IH, nthZ_cons. replace (j - (i + 1)) with (j - i - 1) by lia.
    destruct (j - i =? 0) eqn:E.
    + assert (j = i) by lia. subst j. destruct (streq x s) eqn:Ex.
      * apply streq_eq in Ex. subst. split; [intros _; split; [lia|reflexivity]|]. intros _. left. now left.
      * split; [intros [[]|[H _]]; lia|]. intros [_ H]. injection H as ->. now rewrite streq_refl in Ex.
    + split.
      * intros [H|[H1 H2]]; [destruct (streq x s); [destruct H as [H|[]]; lia|destruct H]|]. split; [lia|exact H2].
      * intros [H1 H2]. right. split; [lia|exact H2].
Qed.
Lemma pos_sorted : forall b i s, StronglySorted Z.lt (pos i b s).
Proof.
  induction b as [|x b IH]; intros i s; cbn [pos]; [constructor|].
  destruct (streq x s); cbn [app]; [|apply IH]. constructor; [apply IH|].
  apply Forall_forall. intros j Hj. apply pos_in in Hj. lia.
Qed.
Lemma pos_length : forall b i s, lenZ (pos i b s) = occurrences s b.
Proof.
  unfold occurrences. induction b as [|x b IH]; intros i s; cbn [pos filter]; [reflexivity|].
  rewrite lenZ_app, IH. destruct (streq x s); [rewrite !lenZ_cons; unfold lenZ; cbn; lia|reflexivity].
Qed.

Lemma purge_get : forall m ks s, get (purge m ks) s = if inb s ks then [] else get m s.
Proof.
  intros m ks s. induction m as [|[k v] m IH]; cbn [purge filter fst get].
  - now destruct (inb s ks).
  - destruct (inb k ks) eqn:E; cbn [negb].
    + fold (purge m ks). rewrite IH. destruct (streq k s) eqn:E2; [|reflexivity].
      apply streq_eq in E2. subst. now rewrite E.
    + fold (purge m ks). cbn [get]. rewrite IH. destruct (streq k s) eqn:E2; [|reflexivity].
      apply streq_eq in E2. subst. now rewrite E.
Qed.
Lemma get_in : forall m s v, NoDup (map fst m) -> In (s, v) m -> get m s = v.
Proof.
  induction m as [|[k w] m IH]; intros s v N H; [destruct H|]. cbn [map fst] in N. apply NoDup_cons_iff in N.
  destruct N as [N1 N2]. cbn [get]. destruct H as [H|H].
  - injection H as -> ->. now rewrite streq_refl.
  - destruct (streq k s) eqn:E; [|now apply IH]. apply streq_eq in E. subst. exfalso. apply N1.
    now apply (in_map fst) in H.
Qed.
Lemma filter_nodup : forall (f : bytes * list Z -> bool) m, NoDup (map fst m) -> NoDup (map fst (filter f m)).
Proof.
  intros f m. induction m as [|kv m IH]; intro N; cbn [filter map fst]; [constructor|].
  cbn [map fst] in N. apply NoDup_cons_iff in N. destruct N as [N1 N2]. destruct (f kv); [|now apply IH].
  cbn [map]. constructor; [|now apply IH]. intro F. apply N1. apply in_map_iff in F. destruct F as (x & E & F).
  apply filter_In in F. rewrite <- E. apply in_map. apply F.
Qed.

Section Index.
  Variable isJunk : option (bytes -> bool).
  Variable autoJunk : bool.
  Variable b : list bytes.
  Let junk := fst (chainB isJunk autoJunk b).
  Let b2j := snd (chainB isJunk autoJunk b).

  Lemma junk_in : forall s, In s junk <-> (In s b /\ exists f, isJunk = Some f /\ f s = true).
  Proof.
    intro s. unfold junk, chainB, junkOf. cbn [fst]. destruct isJunk as [f|].
    - rewrite filter_In, indexLines_keys. cbn [map In]. split.
      + intros [[[]|H] Hf]. split; [exact H|]. now exists f.
      + intros [H (g & E & Hg)]. injection E as <-. auto.
    - split; [intros []|]. intros [_ (f & E & _)]. discriminate.
  Qed.

  Lemma b2j_get : forall s j, In j (get b2j s) <-> (interesting isJunk autoJunk b s /\ nthZ b j = Some s).
  Proof.
    intros s j. unfold b2j, chainB. cbn [snd]. fold (junkOf isJunk (indexLines 0 b [])).
    set (m0 := indexLines 0 b []). set (jk := junkOf isJunk m0).
    assert (G0 : get m0 s = pos 0 b s) by (unfold m0; rewrite indexLines_get; reflexivity).
    assert (N0 : NoDup (map fst m0)) by (apply indexLines_nodup; constructor).
    rewrite !purge_get.
    assert (J : inb s jk = true <-> In s b /\ exists f, isJunk = Some f /\ f s = true).
    { rewrite inb_in. exact (junk_in s). }
    set (pop := popularOf autoJunk (lenZ b) (purge m0 jk)).
    assert (P : inb s pop = true -> autoJunk = true /\ 200 <= lenZ b /\ lenZ b / 100 + 1 < occurrences s b).
    { rewrite inb_in. unfold pop, popularOf. destruct autoJunk; cbn [andb]; [|intros []].
      destruct (200 <=? lenZ b) eqn:E; [|intros []]. intro H. apply in_map_iff in H. destruct H as ([k v] & Ek & H).
      cbn in Ek. subst k. apply filter_In in H. destruct H as [H1 H2]. cbn [snd] in H2.
      unfold purge in H1. apply filter_In in H1. destruct H1 as [H1 _].
      pose proof (get_in m0 s v N0 H1) as Ev. rewrite G0 in Ev. subst v. rewrite pos_length in H2.
      split; [reflexivity|]. split; lia. }
    assert (P' : In s b -> inb s jk = false -> autoJunk = true -> 200 <= lenZ b -> lenZ b / 100 + 1 < occurrences s b -> inb s pop = true).
    { intros Hs Hj Ha Hb Ho. apply inb_in. unfold pop, popularOf. rewrite Ha. cbn [andb].
      destruct (200 <=? lenZ b) eqn:E; [|lia]. apply in_map_iff. exists (s, pos 0 b s). split; [reflexivity|].
      apply filter_In. split; [|cbn [snd]; rewrite pos_length; lia].
      unfold purge. apply filter_In. cbn [fst]. split; [|now rewrite Hj].
      assert (K : In s (map fst m0)) by (apply indexLines_keys; now right).
      apply in_map_iff in K. destruct K as ([k v] & Ek & K). cbn in Ek. subst k.
      pose proof (get_in m0 s v N0 K) as Ev. rewrite G0 in Ev. now subst v. }
    assert (B : nthZ b j = Some s -> In s b).
    { unfold nthZ. destruct (j <? 0); [discriminate|]. apply nth_error_In. }
    split.
    - intro H. destruct (inb s pop) eqn:E1; [destruct H|]. destruct (inb s jk) eqn:E2; [destruct H|]. rewrite G0 in H.
      apply pos_in in H. destruct H as [H1 H2]. rewrite Z.sub_0_r in H2. split; [|exact H2]. split.
      + destruct isJunk as [f|] eqn:Ef; [|exact I]. destruct (f s) eqn:E; [|reflexivity].
        assert (F : false = true) by (apply J; split; [now apply B|now exists f]). discriminate.
      + intros Ha Hb. destruct (Z_le_gt_dec (occurrences s b) (lenZ b / 100 + 1)) as [L|G]; [exact L|].
        assert (F : false = true) by (apply P'; auto; lia). discriminate.
    - intros [[I1 I2] Hn]. destruct (inb s pop) eqn:E1.
      { exfalso. destruct (P eq_refl) as (Q1 & Q2 & Q3). specialize (I2 Q1 Q2). lia. }
      destruct (inb s jk) eqn:E2.
      { exfalso. destruct (proj1 J eq_refl) as (_ & f & Ef & Hf). rewrite Ef in I1. congruence. }
      rewrite G0. apply pos_in. rewrite Z.sub_0_r. split; [|exact Hn]. apply nthZ_bound in Hn. lia.
  Qed.

  Lemma b2j_sorted : forall s, StronglySorted Z.lt (get b2j s).
  Proof.
    intro s. unfold b2j, chainB. cbn [snd]. rewrite !purge_get.
    destruct (inb _ _); [constructor|]. destruct (inb _ _); [constructor|]. rewrite indexLines_get. apply pos_sorted.
  Qed.
End Index.

(** * Blocks *)
Section Blocks.
  Variable a b : list bytes.
  Variable isJunk : option (bytes -> bool).
  Variable autoJunk : bool.
  Let junk := fst (chainB isJunk autoJunk b).
  Let b2j := snd (chainB isJunk autoJunk b).

  Lemma longest_ok : forall alo ahi blo bhi,
    0 <= alo /\ alo <= ahi /\ ahi <= lenZ a -> 0 <= blo /\ blo <= bhi /\ bhi <= lenZ b ->
    exists m0 m1 m, findLongestMatch a b junk b2j alo ahi blo bhi = Some m /\
      found a b alo ahi blo bhi (interesting isJunk autoJunk b) m0 /\ inWindow a b alo ahi blo bhi m /\
      extends m0 m1 /\ extends m1 m /\ stopRight a b junk ahi bhi false m1 /\ stopRight a b junk ahi bhi true m.
  Proof.
    intros alo ahi blo bhi Ha Hb.
    apply (findLongestMatch_ok a b junk b2j alo ahi blo bhi Ha Hb (interesting isJunk autoJunk b)).
    - intros s j H. apply b2j_get in H. apply H.
    - intro s. apply b2j_sorted.
    - intros s j H. apply b2j_get in H. apply H.
    - intros s j H1 H2. apply b2j_get. auto.
  Qed.

  (** Blocks from (i, j) to (ahi, bhi) *)
  Definition block (m : Match) : Prop := 0 < mSize m /\ forall d, 0 <= d < mSize m -> nthZ a (mA m + d) = nthZ b (mB m + d).
  Fixpoint chain (i j : Z) (l : list Match) (ahi bhi : Z) : Prop :=
    match l with
    | [] => i <= ahi /\ j <= bhi
    | m :: r => i <= mA m /\ j <= mB m /\ block m /\ chain (mA m + mSize m) (mB m + mSize m) r ahi bhi
    end.
  Lemma chain_weaken : forall l i j i' j' ahi bhi, i' <= i -> j' <= j -> chain i j l ahi bhi -> chain i' j' l ahi bhi.
  Proof. intros [|m l] i j i' j' ahi bhi Hi Hj H; cbn [chain] in *; [lia|]. destruct H as (H1 & H2 & H3). repeat split; try lia; apply H3. Qed.
  Lemma chain_app : forall l l' i j i' j' ahi bhi, chain i j l i' j' -> chain i' j' l' ahi bhi -> chain i j (l ++ l') ahi bhi.
  Proof.
    induction l as [|m l IH]; intros l' i j i' j' ahi bhi H H'; cbn [chain app] in *.
    - now apply (chain_weaken l' i' j').
    - destruct H as (H1 & H2 & H3 & H4). split; [exact H1|]. split; [exact H2|]. split; [exact H3|]. now apply (IH l' _ _ i' j').
  Qed.

  Lemma inWindow_block : forall alo ahi blo bhi m, inWindow a b alo ahi blo bhi m -> 0 < mSize m -> block m.
  Proof. intros alo ahi blo bhi m [(H & _)|(_ & _ & _ & _ & H5 & H6)] K; [lia|]. split; [exact H5|exact H6]. Qed.

  Lemma matchBlocks_ok : forall fuel alo ahi blo bhi matched,
    0 <= alo /\ alo <= ahi /\ ahi <= lenZ a -> 0 <= blo /\ blo <= bhi /\ bhi <= lenZ b -> ahi - alo < Z.of_nat fuel ->
    exists l, matchBlocks fuel a b junk b2j alo ahi blo bhi matched = Some (matched ++ l) /\ chain alo blo l ahi bhi.
  Proof.
    induction fuel as [|fuel IH]; intros alo ahi blo bhi matched Ha Hb Hf; [lia|].
    cbn [matchBlocks]. destruct (longest_ok alo ahi blo bhi Ha Hb) as (m0 & m1 & m & E & _ & W & _).
    rewrite E. cbn [obind]. pose proof (inWindow_bounds a b alo ahi blo bhi m W) as (B1 & B2 & B3 & B4 & B5).
    destruct (0 <? mSize m) eqn:Ek; [|exists []; rewrite app_nil_r; split; [reflexivity|cbn; lia]].
    pose proof (inWindow_block _ _ _ _ m W ltac:(lia)) as Bm.
    assert (L : exists l1, (if (alo <? mA m) && (blo <? mB m) then matchBlocks fuel a b junk b2j alo (mA m) blo (mB m) matched
                else Some matched) = Some (matched ++ l1) /\ chain alo blo l1 (mA m) (mB m)).
    { destruct ((alo <? mA m) && (blo <? mB m)) eqn:E1.
      - apply andb_true_iff in E1. destruct (IH alo (mA m) blo (mB m) matched) as (l1 & El & C); try lia. eauto.
      - exists []. rewrite app_nil_r. split; [reflexivity|]. cbn. lia. }
    destruct L as (l1 & E1 & C1). rewrite E1. cbn [obind].
    assert (C2 : chain alo blo (l1 ++ [m]) (mA m + mSize m) (mB m + mSize m)).
    { apply (chain_app l1 [m] alo blo (mA m) (mB m)); [exact C1|]. cbn [chain]. repeat split; try lia; apply Bm. }
    destruct ((mA m + mSize m <? ahi) && (mB m + mSize m <? bhi)) eqn:E2.
    - destruct (IH (mA m + mSize m) ahi (mB m + mSize m) bhi ((matched ++ l1) ++ [m])) as (l2 & El & C3); try lia.
      rewrite El. exists ((l1 ++ [m]) ++ l2). split; [now rewrite !app_assoc|]. now apply (chain_app _ _ _ _ (mA m + mSize m) (mB m + mSize m)).
    - exists (l1 ++ [m]). split; [now rewrite app_assoc|]. rewrite <- (app_nil_r (l1 ++ [m])).
      apply (chain_app _ _ _ _ (mA m + mSize m) (mB m + mSize m)); [exact C2|]. cbn. lia.
  Qed.

  (** Blocks that do not touch the one before *)
  Fixpoint sep (i j : Z) (l : list Match) (ahi bhi : Z) : Prop :=
    match l with
    | [] => i <= ahi /\ j <= bhi
    | m :: r => i <= mA m /\ j <= mB m /\ ~ (i = mA m /\ j = mB m) /\ block m /\ sep (mA m + mSize m) (mB m + mSize m) r ahi bhi
    end.
  Lemma collapse_pos : forall l i1 j1 k1 ahi bhi, block (mkMatch i1 j1 k1) -> chain (i1 + k1) (j1 + k1) l ahi bhi ->
    exists k r, collapse i1 j1 k1 l = mkMatch i1 j1 k :: r /\ block (mkMatch i1 j1 k) /\ sep (i1 + k) (j1 + k) r ahi bhi.
  Proof.
    induction l as [|m l IH]; intros i1 j1 k1 ahi bhi B C; cbn [collapse].
    - exists k1, []. destruct B as [B1 B2]. cbn [mSize] in B1. destruct (0 <? k1) eqn:E; [|lia].
      split; [reflexivity|]. split; [now split|]. exact C.
    - destruct C as (C1 & C2 & Bm & C3). destruct ((i1 + k1 =? mA m) && (j1 + k1 =? mB m)) eqn:E.
      + apply andb_true_iff in E. apply (IH i1 j1 (k1 + mSize m) ahi bhi).
        * destruct B as [B1 B2], Bm as [Bm1 Bm2]. cbn [mA mB mSize] in *. split; cbn [mA mB mSize]; [lia|].
          intros d Hd. destruct (Z_lt_ge_dec d k1) as [L|G]; [apply B2; lia|]. specialize (Bm2 (d - k1) ltac:(lia)).
          replace (mA m + (d - k1)) with (i1 + d) in Bm2 by lia. now replace (mB m + (d - k1)) with (j1 + d) in Bm2 by lia.
        * replace (i1 + (k1 + mSize m)) with (mA m + mSize m) by lia. now replace (j1 + (k1 + mSize m)) with (mB m + mSize m) by lia.
      + destruct (0 <? k1) eqn:Ek; [|destruct B as [B1 _]; cbn [mSize] in B1; lia].
        destruct (IH (mA m) (mB m) (mSize m) ahi bhi) as (k & r & Er & Bk & S'); [destruct m; exact Bm|exact C3|].
        rewrite Er. exists k1, (mkMatch (mA m) (mB m) k :: r). split; [reflexivity|]. split; [exact B|].
        cbn [sep mA mB mSize]. repeat split; try lia; [apply Bk|apply Bk|exact S'].
  Qed.

  (** The first block may be anywhere, the others do not touch *)
  Definition separated (l : list Match) (ahi bhi : Z) : Prop :=
    match l with
    | [] => 0 <= ahi /\ 0 <= bhi
    | m :: r => 0 <= mA m /\ 0 <= mB m /\ block m /\ sep (mA m + mSize m) (mB m + mSize m) r ahi bhi
    end.
  Lemma collapse_ok : forall l ahi bhi, chain 0 0 l ahi bhi -> separated (collapse 0 0 0 l) ahi bhi.
  Proof.
    intros [|m l] ahi bhi C; cbn [collapse]; [exact C|]. destruct C as (C1 & C2 & B & C3).
    destruct ((0 + 0 =? mA m) && (0 + 0 =? mB m)) eqn:E; cbn [Z.ltb Z.compare app].
    - apply andb_true_iff in E. destruct (collapse_pos l 0 0 (0 + mSize m) ahi bhi) as (k & r & Er & Bk & S').
      + replace 0 with (mA m) at 1 by lia. replace 0 with (mB m) at 1 by lia. destruct m. exact B.
      + replace (0 + (0 + mSize m)) with (mA m + mSize m) at 1 by lia.
        replace (0 + (0 + mSize m)) with (mB m + mSize m) at 1 by lia. exact C3.
      + rewrite Er. cbn [separated mA mB mSize]. repeat split; try lia; [apply Bk|apply Bk|exact S'].
    - destruct (collapse_pos l (mA m) (mB m) (mSize m) ahi bhi) as (k & r & Er & Bk & S'); [destruct m; exact B|exact C3|].
      rewrite Er. cbn [separated mA mB mSize]. repeat split; try lia; [apply Bk|apply Bk|exact S'].
  Qed.

  Theorem computeBlocks_ok : exists l, computeBlocks a b junk b2j = Some (l ++ [mkMatch (lenZ a) (lenZ b) 0]) /\ separated l (lenZ a) (lenZ b).
  Proof.
    unfold computeBlocks. pose proof (lenZ_nonneg _ a). pose proof (lenZ_nonneg _ b).
    destruct (matchBlocks_ok (S (List.length a)) 0 (lenZ a) 0 (lenZ b) []) as (l & E & C); try lia; [unfold lenZ; lia|].
    rewrite E. cbn [obind app]. eexists. split; [reflexivity|]. now apply collapse_ok.
  Qed.

  (** Equal lists *)
  Fixpoint full (i j : Z) (l : list Match) (ahi bhi : Z) : Prop :=
    match l with
    | [] => i = ahi /\ j = bhi
    | m :: r => i = mA m /\ j = mB m /\ 0 < mSize m /\ full (mA m + mSize m) (mB m + mSize m) r ahi bhi
    end.
  Lemma full_app : forall l l' i j i' j' ahi bhi, full i j l i' j' -> full i' j' l' ahi bhi -> full i j (l ++ l') ahi bhi.
  Proof.
    induction l as [|m l IH]; intros l' i j i' j' ahi bhi H H'; cbn [full app] in *.
    - destruct H as [-> ->]. exact H'.
    - destruct H as (H1 & H2 & H3 & H4). split; [exact H1|]. split; [exact H2|]. split; [exact H3|]. now apply (IH l' _ _ i' j').
  Qed.
  Lemma collapse_full : forall l i1 j1 k1 ahi bhi, 0 <= k1 -> full (i1 + k1) (j1 + k1) l ahi bhi ->
    collapse i1 j1 k1 l = if i1 <? ahi then [mkMatch i1 j1 (ahi - i1)] else [].
  Proof.
    induction l as [|m l IH]; intros i1 j1 k1 ahi bhi Hk F; cbn [collapse full] in *.
    - destruct F as [<- _]. destruct (0 <? k1) eqn:E1; destruct (i1 <? i1 + k1) eqn:E2; try lia; [|reflexivity].
      now replace (i1 + k1 - i1) with k1 by lia.
    - destruct F as (F1 & F2 & F3 & F4). destruct ((i1 + k1 =? mA m) && (j1 + k1 =? mB m)) eqn:E; [|lia].
      apply (IH i1 j1 (k1 + mSize m) ahi bhi); [lia|].
      replace (i1 + (k1 + mSize m)) with (mA m + mSize m) by lia. now replace (j1 + (k1 + mSize m)) with (mB m + mSize m) by lia.
  Qed.

  Lemma matchBlocks_full : forall fuel alo ahi blo bhi matched,
    0 <= alo /\ alo < ahi /\ ahi <= lenZ a -> 0 <= blo /\ blo <= bhi /\ bhi <= lenZ b -> ahi - alo < Z.of_nat fuel ->
    ahi - alo = bhi - blo -> (forall d, 0 <= d < ahi - alo -> nthZ a (alo + d) = nthZ b (blo + d)) ->
    exists l, matchBlocks fuel a b junk b2j alo ahi blo bhi matched = Some (matched ++ l) /\ full alo blo l ahi bhi.
  Proof.
    induction fuel as [|fuel IH]; intros alo ahi blo bhi matched Ha Hb Hf Hd Heq; [lia|].
    cbn [matchBlocks]. destruct (longest_ok alo ahi blo bhi) as (m0 & m1 & m & E & F0 & W & X1 & X2 & S1 & S2); try lia.
    rewrite E. cbn [obind]. pose proof (inWindow_bounds a b alo ahi blo bhi m W) as (B1 & B2 & B3 & B4 & B5).
    assert (D0 : mA m0 - alo = mB m0 - blo).
    { destruct F0 as [[->|[(R1 & R2 & R3 & R4 & R5 & R6) R7]] F0]; [cbn; lia|].
      assert (D1 : irun a b alo ahi blo bhi (interesting isJunk autoJunk b) (mA m0) (mA m0 - alo + blo) (mSize m0)).
      { split; [|exact R7]. repeat split; try lia. intros d Hdd. specialize (Heq (mA m0 - alo + d) ltac:(lia)).
        replace (alo + (mA m0 - alo + d)) with (mA m0 + d) in Heq by lia. rewrite Heq. f_equal. lia. }
      assert (D2 : irun a b alo ahi blo bhi (interesting isJunk autoJunk b) (mB m0 - blo + alo) (mB m0) (mSize m0)).
      { assert (Q : forall d, 0 <= d < mSize m0 -> nthZ a (mB m0 - blo + alo + d) = nthZ b (mB m0 + d)).
        { intros d Hdd. specialize (Heq (mB m0 - blo + d) ltac:(lia)).
          replace (alo + (mB m0 - blo + d)) with (mB m0 - blo + alo + d) in Heq by lia. rewrite Heq. f_equal. lia. }
        split; [repeat split; try lia; exact Q|]. intros d s Hdd Es. apply (R7 d s Hdd). rewrite R6 by exact Hdd.
        now rewrite <- Q. }
      destruct (F0 _ _ _ D1) as [L|[_ [L|[L L']]]], (F0 _ _ _ D2) as [M|[_ [M|[M M']]]]; lia. }
    destruct X1 as (X11 & X12 & X13), X2 as (X21 & X22 & X23).
    assert (Dm : mA m - alo = mB m - blo) by lia.
    assert (K : 0 < mSize m).
    { destruct (Z.eq_dec (mSize m) 0) as [K0|]; [exfalso|lia].
      assert (C0 : m0 = mkMatch alo blo 0).
      { destruct F0 as [[C0|[(_ & _ & _ & _ & R5 & _) _]] _]; [exact C0|lia]. }
      rewrite C0 in *. cbn [mA mB mSize] in *.
      assert (Q1 : mA m1 = alo /\ mB m1 = blo /\ mSize m1 = 0 /\ mA m = alo /\ mB m = blo) by lia.
      destruct Q1 as (Q1 & Q2 & Q3 & Q4 & Q5). unfold stopRight in S1, S2. rewrite Q1, Q2, Q3 in S1. rewrite Q4, Q5, K0 in S2.
      rewrite !Z.add_0_r in *. specialize (Heq 0 ltac:(lia)). rewrite !Z.add_0_r in Heq.
      destruct S1 as [S1|[S1|(x & y & Ex & Ey & N1)]]; [lia|lia|].
      destruct S2 as [S2|[S2|(x' & y' & Ex' & Ey' & N2)]]; [lia|lia|].
      assert (x = y) by congruence. assert (x' = y') by congruence. assert (y' = y) by congruence. subst.
      destruct (DiffModel.isBJunk junk y); [now apply N2|now apply N1]. }
    destruct (0 <? mSize m) eqn:Ek; [|lia].
    assert (L : exists l1, (if (alo <? mA m) && (blo <? mB m) then matchBlocks fuel a b junk b2j alo (mA m) blo (mB m) matched
                else Some matched) = Some (matched ++ l1) /\ full alo blo l1 (mA m) (mB m)).
    { destruct ((alo <? mA m) && (blo <? mB m)) eqn:E1.
      - apply andb_true_iff in E1. destruct (IH alo (mA m) blo (mB m) matched) as (l1 & El & C); try lia; [|eauto].
        intros d Hdd. apply Heq. lia.
      - exists []. rewrite app_nil_r. split; [reflexivity|]. cbn. lia. }
    destruct L as (l1 & E1 & C1). rewrite E1. cbn [obind].
    assert (C2 : full alo blo (l1 ++ [m]) (mA m + mSize m) (mB m + mSize m)).
    { apply (full_app l1 [m] alo blo (mA m) (mB m)); [exact C1|]. cbn [full]. repeat split; lia. }
    destruct ((mA m + mSize m <? ahi) && (mB m + mSize m <? bhi)) eqn:E2.
    - apply andb_true_iff in E2.
      destruct (IH (mA m + mSize m) ahi (mB m + mSize m) bhi ((matched ++ l1) ++ [m])) as (l2 & El & C3); try lia.
      { intros d Hdd. specialize (Heq (mA m + mSize m - alo + d) ltac:(lia)).
        replace (alo + (mA m + mSize m - alo + d)) with (mA m + mSize m + d) in Heq by lia. rewrite Heq. f_equal. lia. }
      rewrite El. exists ((l1 ++ [m]) ++ l2). split; [now rewrite !app_assoc|]. now apply (full_app _ _ _ _ (mA m + mSize m) (mB m + mSize m)).
    - exists (l1 ++ [m]). split; [now rewrite app_assoc|]. rewrite <- (app_nil_r (l1 ++ [m])).
      apply (full_app _ _ _ _ (mA m + mSize m) (mB m + mSize m)); [exact C2|]. cbn. lia.
  Qed.
End Blocks.

(** Equal lists are one block *)
Lemma computeBlocks_same : forall a isJunk autoJunk,
  computeBlocks a a (fst (chainB isJunk autoJunk a)) (snd (chainB isJunk autoJunk a)) =
  Some ((if 0 <? lenZ a then [mkMatch 0 0 (lenZ a)] else []) ++ [mkMatch (lenZ a) (lenZ a) 0]).
Proof.
  intros a isJunk autoJunk. pose proof (lenZ_nonneg _ a) as N. unfold computeBlocks. destruct (0 <? lenZ a) eqn:E0.
  - destruct (matchBlocks_full a a isJunk autoJunk (S (List.length a)) 0 (lenZ a) 0 (lenZ a) []) as (l & E & F); try lia.
    + unfold lenZ. lia.
    + reflexivity.
    + rewrite E. cbn [obind app]. rewrite (collapse_full l 0 0 0 (lenZ a) (lenZ a)); [|lia|exact F].
      now rewrite E0, Z.sub_0_r.
  - destruct a as [|x a]; [reflexivity|]. rewrite lenZ_cons in E0. pose proof (lenZ_nonneg _ a). lia.
Qed.
