(** Proofs about histories of calls on one matcher, and about the text of unified diffs. *)
From Verif Require Import Base DiffModel DiffSpec DiffProofs DiffBlockProofs DiffCodeProofs DiffGroupProofs.

(** * Histories *)
Definition blocksOf (m : matcher) : option (list Match) :=
  computeBlocks (seqA m) (seqB m) (fst (chainB (isJunk m) (autoJunk m) (seqB m))) (snd (chainB (isJunk m) (autoJunk m) (seqB m))).
Definition wf (m : matcher) : Prop :=
  junkB m = fst (chainB (isJunk m) (autoJunk m) (seqB m)) /\ index m = snd (chainB (isJunk m) (autoJunk m) (seqB m)) /\
  (forall bl, blocksCache m = Some bl -> blocksOf m = Some bl).
(** the cached op codes are right *)
Definition fresh (m : matcher) : Prop :=
  forall codes, codesCache m = Some codes -> exists bl, blocksOf m = Some bl /\ codes = codesOf 0 0 bl.

Lemma set1_wf : forall m a, wf m -> wf (SetSeq1 m a) /\ fresh (SetSeq1 m a).
Proof. intros m a (W1 & W2 & W3). split; [split; [exact W1|split; [exact W2|intros bl H; discriminate H]]|intros c H; discriminate H]. Qed.
Lemma set2_wf : forall m b, wf (SetSeq2 m b) /\ fresh (SetSeq2 m b) /\ seqA (SetSeq2 m b) = seqA m /\ seqB (SetSeq2 m b) = b /\
  isJunk (SetSeq2 m b) = isJunk m /\ autoJunk (SetSeq2 m b) = autoJunk m.
Proof.
  intros m b. unfold SetSeq2, wf, fresh, blocksOf. destruct (chainB (isJunk m) (autoJunk m) b) as [jk ix] eqn:E.
  cbn [junkB index isJunk autoJunk seqA seqB blocksCache codesCache]. rewrite E. cbn [fst snd].
  repeat split; try reflexivity; intros x H; discriminate H.
Qed.
Lemma blocks_total : forall m, exists bl, blocksOf m = Some bl.
Proof. intro m. destruct (computeBlocks_ok (seqA m) (seqB m) (isJunk m) (autoJunk m)) as (l & E & _). eexists. exact E. Qed.

Lemma getBlocks_ok : forall m, wf m -> exists m' bl, GetMatchingBlocks m = Some (m', bl) /\ blocksOf m = Some bl /\ wf m' /\
  seqA m' = seqA m /\ seqB m' = seqB m /\ isJunk m' = isJunk m /\ autoJunk m' = autoJunk m /\ codesCache m' = codesCache m /\ (fresh m -> fresh m').
Proof.
  intros m W. pose proof W as (W1 & W2 & W3). unfold GetMatchingBlocks. destruct (blocksCache m) as [bl|] eqn:E.
  - exists m, bl. split; [reflexivity|]. split; [now apply W3|]. split; [exact W|]. auto 10.
  - destruct (blocks_total m) as [bl B]. unfold blocksOf in B. rewrite W1, W2, B. cbn [obind]. eexists. exists bl. split; [reflexivity|].
    split; [exact B|]. split.
    + split; [reflexivity|]. split; [reflexivity|]. intros bl' H. injection H as <-. exact B.
    + repeat split; auto.
Qed.
Lemma getCodes_ok : forall m, wf m -> fresh m -> exists m' bl, GetOpCodes m = Some (m', codesOf 0 0 bl) /\ blocksOf m = Some bl /\ wf m' /\ fresh m' /\
  seqA m' = seqA m /\ seqB m' = seqB m /\ isJunk m' = isJunk m /\ autoJunk m' = autoJunk m.
Proof.
  intros m W F. unfold GetOpCodes. destruct (codesCache m) as [codes|] eqn:E.
  - destruct (F codes E) as (bl & B & ->). exists m, bl. repeat split; auto; apply W.
  - destruct (getBlocks_ok m W) as (m' & bl & G & B & W' & A1 & A2 & A3 & A4 & A5 & A6). rewrite G. cbn [obind].
    eexists. exists bl. split; [reflexivity|]. split; [exact B|].
    assert (B' : blocksOf (setCodes m' (codesOf 0 0 bl)) = Some bl).
    { unfold blocksOf, setCodes. cbn [seqA seqB isJunk autoJunk]. rewrite A1, A2, A3, A4. exact B. }
    destruct W' as (W1 & W2 & W3). split; [split; [exact W1|split; [exact W2|]]|].
    + intros bl' H. cbn [blocksCache setCodes] in H. specialize (W3 _ H). exact W3.
    + split; [|cbn [setCodes seqA seqB isJunk autoJunk]; auto]. intros codes H. cbn in H. injection H as <-. exists bl. auto.
Qed.
Lemma getCodes_total : forall m, wf m -> exists m' codes, GetOpCodes m = Some (m', codes) /\ wf m' /\
  seqA m' = seqA m /\ seqB m' = seqB m /\ isJunk m' = isJunk m /\ autoJunk m' = autoJunk m.
Proof.
  intros m W. unfold GetOpCodes. destruct (codesCache m) as [codes|] eqn:E.
  - exists m, codes. repeat split; auto; apply W.
  - destruct (getBlocks_ok m W) as (m' & bl & G & B & W' & A1 & A2 & A3 & A4 & A5 & A6). rewrite G. cbn [obind].
    eexists. eexists. split; [reflexivity|]. destruct W' as (W1 & W2 & W3). split; [split; [exact W1|split; [exact W2|exact W3]]|].
    cbn [setCodes seqA seqB isJunk autoJunk]; auto.
Qed.
Lemma getGrouped_total : forall m n, wf m -> exists m' gs, GetGroupedOpCodes m n = Some (m', gs) /\ wf m' /\
  seqA m' = seqA m /\ seqB m' = seqB m /\ isJunk m' = isJunk m /\ autoJunk m' = autoJunk m.
Proof.
  intros m n W. unfold GetGroupedOpCodes. destruct (getCodes_total m W) as (m' & codes & G & W' & A1 & A2 & A3 & A4). rewrite G. cbn [obind].
  destruct codes as [|c r]; eexists; eexists; (split; [reflexivity|]); [auto|].
  destruct W' as (W1 & W2 & W3). split; [split; [exact W1|split; [exact W2|exact W3]]|]. cbn [setCodes seqA seqB isJunk autoJunk]; auto.
Qed.

Lemma perform_ok : forall m c, wf m -> exists m', perform m c = Some m' /\ wf m' /\ (seqA m', seqB m') = setBy (seqA m, seqB m) c /\
  isJunk m' = isJunk m /\ autoJunk m' = autoJunk m /\ (fresh m -> isGrouped c = false -> fresh m').
Proof.
  intros m c W. destruct c as [a|b|a b| | |n]; cbn [perform setBy isGrouped fst snd].
  - destruct (set1_wf m a W) as [W' F']. eexists. split; [reflexivity|]. repeat split; auto; apply W'.
  - destruct (set2_wf m b) as (W' & F' & A1 & A2 & A3 & A4). eexists. split; [reflexivity|]. split; [exact W'|]. rewrite A1, A2. auto.
  - unfold SetSeqs. destruct (set2_wf (SetSeq1 m a) b) as (W' & F' & A1 & A2 & A3 & A4). eexists. split; [reflexivity|]. split; [exact W'|].
    rewrite A1, A2. auto.
  - destruct (getBlocks_ok m W) as (m' & bl & G & _ & W' & A1 & A2 & A3 & A4 & _ & F'). rewrite G. eexists. split; [reflexivity|].
    cbn [fst]. rewrite A1, A2. auto 8.
  - destruct (getCodes_total m W) as (m' & codes & G & W' & A1 & A2 & A3 & A4). rewrite G. eexists. split; [reflexivity|]. cbn [fst].
    rewrite A1, A2. split; [exact W'|]. split; [reflexivity|]. split; [exact A3|]. split; [exact A4|]. intros F _.
    destruct (getCodes_ok m W F) as (m2 & bl & G2 & _ & _ & F2 & _). rewrite G in G2. injection G2 as -> _. exact F2.
  - destruct (getGrouped_total m n W) as (m' & gs & G & W' & A1 & A2 & A3 & A4). rewrite G. eexists. split; [reflexivity|]. cbn [fst].
    rewrite A1, A2. split; [exact W'|]. split; [reflexivity|]. split; [exact A3|]. split; [exact A4|]. discriminate.
Qed.
Lemma performs_ok : forall h m, wf m -> exists m', performs m h = Some m' /\ wf m' /\ (seqA m', seqB m') = fold_left setBy h (seqA m, seqB m) /\
  isJunk m' = isJunk m /\ autoJunk m' = autoJunk m /\ (fresh m -> existsb isGrouped h = false -> fresh m').
Proof.
  induction h as [|c h IH]; intros m W; cbn [performs fold_left existsb].
  - exists m. repeat split; auto; apply W.
  - destruct (perform_ok m c W) as (m1 & E1 & W1 & S1 & J1 & A1 & F1). rewrite E1. cbn [obind].
    destruct (IH m1 W1) as (m2 & E2 & W2 & S2 & J2 & A2 & F2). exists m2. split; [exact E2|]. split; [exact W2|].
    rewrite S2, S1. split; [reflexivity|]. rewrite J2, A2. split; [exact J1|]. split; [exact A1|]. intros F G.
    apply orb_false_iff in G. destruct G as [G1 G2]. auto.
Qed.
Lemma new_wf : forall a b aj ij, wf (NewMatcherWithJunk a b aj ij) /\ fresh (NewMatcherWithJunk a b aj ij) /\
  seqA (NewMatcherWithJunk a b aj ij) = a /\ seqB (NewMatcherWithJunk a b aj ij) = b /\
  isJunk (NewMatcherWithJunk a b aj ij) = ij /\ autoJunk (NewMatcherWithJunk a b aj ij) = aj.
Proof.
  intros a b aj ij. unfold NewMatcherWithJunk, SetSeqs.
  exact (set2_wf (SetSeq1 (mkMatcher [] [] [] ij aj [] None None) a) b).
Qed.

Lemma grouped_of : forall m n, wf m -> fresh m -> asked n < 2 ^ 62 -> lenZ (seqA m) < 2 ^ 62 -> lenZ (seqB m) < 2 ^ 62 ->
  exists m' gs m2 codes, GetGroupedOpCodes m n = Some (m', gs) /\ GetOpCodes m = Some (m2, codes) /\
    grouped (asked n) (seqA m) (seqB m) 0 0 (asked n) gs /\ changes (List.concat gs) = changes codes.
Proof.
  intros m n W F Hn La Lb. unfold GetGroupedOpCodes. destruct (getCodes_ok m W F) as (m2 & bl & G & B & _). rewrite G. cbn [obind].
  fold (asked n). assert (Hn0 : 0 <= asked n) by (unfold asked; destruct (n <? 0) eqn:E; lia).
  destruct (computeBlocks_ok (seqA m) (seqB m) (isJunk m) (autoJunk m)) as (l & E & S').
  unfold blocksOf in B. rewrite B in E. injection E as ->.
  pose proof (codesOf_ok (seqA m) (seqB m) l S') as R. set (codes := codesOf 0 0 (l ++ [mkMatch (lenZ (seqA m)) (lenZ (seqB m)) 0])) in *.
  destruct codes as [|c r] eqn:Ec.
  - eexists. eexists. exists m2, []. split; [reflexivity|]. split; [reflexivity|]. rewrite groups_empty by lia.
    destruct R as ([R1 R2] & _). split; [|reflexivity]. apply grouped_end; try lia. rewrite !part_empty by lia. reflexivity.
  - eexists. eexists. exists m2, (c :: r). split; [reflexivity|]. split; [reflexivity|]. split.
    + rewrite int64_id by lia. replace (asked n + asked n) with (2 * asked n) by lia. apply groups_ok; try lia; [exact R|discriminate].
    + rewrite groupLoop_changes, fixCodes_changes. reflexivity.
Qed.

(** * Text *)
Section TextProofs.
  Variable decimal : Z -> bytes.
  Variable other : bytes -> bytes.
  Variable a b : list bytes.

  Definition bodyOf (c : OpCode) : list (mark * bytes) :=
    if Tag c =? tag_e then map (pair Same) (part a (I1 c) (I2 c))
    else (if (Tag c =? tag_r) || (Tag c =? tag_d) then map (pair Del) (part a (I1 c) (I2 c)) else []) ++
         (if (Tag c =? tag_r) || (Tag c =? tag_i) then map (pair Ins) (part b (J1 c) (J2 c)) else []).
  Definition bodies (g : list OpCode) : list (mark * bytes) := List.concat (map bodyOf g).
  Definition hunkOf (g : list OpCode) : hunk :=
    match g with [] => mkHunk 0 0 [] | c :: _ => mkHunk (I1 c) (J1 c) (bodies g) end.

  Definition keepOld (l : list (mark * bytes)) := map snd (filter (fun l => negb (mark_eqb (fst l) Ins)) l).
  Definition keepNew (l : list (mark * bytes)) := map snd (filter (fun l => negb (mark_eqb (fst l) Del)) l).
  Lemma keepOld_app : forall l l', keepOld (l ++ l') = keepOld l ++ keepOld l'.
  Proof. intros. unfold keepOld. now rewrite filter_app, map_app. Qed.
  Lemma keepNew_app : forall l l', keepNew (l ++ l') = keepNew l ++ keepNew l'.
  Proof. intros. unfold keepNew. now rewrite filter_app, map_app. Qed.
  Lemma keepOld_map : forall m l, keepOld (map (pair m) l) = match m with Ins => [] | _ => l end.
  Proof. intros m l. unfold keepOld. induction l as [|x l IH]; destruct m; cbn in *; try reflexivity; congruence. Qed.
  Lemma keepNew_map : forall m l, keepNew (map (pair m) l) = match m with Del => [] | _ => l end.
  Proof. intros m l. unfold keepNew. induction l as [|x l IH]; destruct m; cbn in *; try reflexivity; congruence. Qed.

  Lemma body_old : forall c, truthful0 a b c -> keepOld (bodyOf c) = part a (I1 c) (I2 c).
  Proof.
    intros c H. unfold bodyOf. destruct H as [[H|[H|[H|H]]]|H]; destruct H as (H & H'); rewrite H; cbn [Z.eqb Pos.eqb orb tag_e tag_r tag_d tag_i];
      rewrite ?app_nil_r, ?keepOld_app, ?keepOld_map, ?app_nil_r; try reflexivity.
    rewrite part_empty by lia. reflexivity.
  Qed.
  Lemma body_new : forall c, truthful0 a b c -> keepNew (bodyOf c) = part b (J1 c) (J2 c).
  Proof.
    intros c H. unfold bodyOf. destruct H as [[H|[H|[H|H]]]|H]; destruct H as (H & H'); rewrite H; cbn [Z.eqb Pos.eqb orb tag_e tag_r tag_d tag_i];
      rewrite ?app_nil_r, ?keepNew_app, ?keepNew_map, ?app_nil_r; try reflexivity.
    - apply H'.
    - rewrite part_empty by lia. reflexivity.
    - rewrite !part_empty by lia. reflexivity.
  Qed.
  Lemma truthful0_le : forall c, truthful0 a b c -> I1 c <= I2 c /\ J1 c <= J2 c.
  Proof. intros c [[H|[H|[H|H]]]|H]; lia. Qed.
  Lemma tiles0_le : forall g si sj ei ej, Forall (truthful0 a b) g -> tiles si sj g ei ej -> si <= ei /\ sj <= ej.
  Proof.
    induction g as [|c g IH]; intros si sj ei ej F T; cbn [tiles] in T; [lia|]. inversion F as [|? ? F1 F2]; subst.
    destruct T as (T1 & T2 & T3). destruct (IH _ _ _ _ F2 T3). destruct (truthful0_le c F1). lia.
  Qed.
  Lemma bodies_old : forall g si sj ei ej, Forall (truthful0 a b) g -> 0 <= si -> tiles si sj g ei ej -> keepOld (bodies g) = part a si ei.
  Proof.
    induction g as [|c g IH]; intros si sj ei ej F H T; cbn [tiles] in T; unfold bodies; cbn [map List.concat].
    - rewrite part_empty by lia. reflexivity.
    - inversion F as [|? ? F1 F2]; subst. destruct T as (T1 & T2 & T3). destruct (tiles0_le _ _ _ _ _ F2 T3). destruct (truthful0_le c F1).
      rewrite keepOld_app, body_old by exact F1. fold (bodies g). rewrite (IH (I2 c) (J2 c) ei ej F2 ltac:(lia) T3).
      subst si. apply part_app; lia.
  Qed.
  Lemma bodies_new : forall g si sj ei ej, Forall (truthful0 a b) g -> 0 <= sj -> tiles si sj g ei ej -> keepNew (bodies g) = part b sj ej.
  Proof.
    induction g as [|c g IH]; intros si sj ei ej F H T; cbn [tiles] in T; unfold bodies; cbn [map List.concat].
    - rewrite part_empty by lia. reflexivity.
    - inversion F as [|? ? F1 F2]; subst. destruct T as (T1 & T2 & T3). destruct (tiles0_le _ _ _ _ _ F2 T3). destruct (truthful0_le c F1).
      rewrite keepNew_app, body_new by exact F1. fold (bodies g). rewrite (IH (I2 c) (J2 c) ei ej F2 ltac:(lia) T3).
      subst sj. apply part_app; lia.
  Qed.

  (** The first and the last code of a group *)
  Lemma tiles_first : forall c g si sj ei ej, tiles si sj (c :: g) ei ej -> I1 c = si /\ J1 c = sj.
  Proof. intros c g si sj ei ej (T1 & T2 & _). auto. Qed.
  Lemma tiles_last : forall g c si sj ei ej, tiles si sj (c :: g) ei ej -> I2 (lastOf c g) = ei /\ J2 (lastOf c g) = ej.
  Proof.
    induction g as [|c' g IH]; intros c si sj ei ej T.
    - cbn [tiles] in T. cbn [lastOf]. destruct T as (_ & _ & T1 & T2). split; assumption.
    - destruct T as (_ & _ & T). exact (IH c' _ _ _ _ T).
  Qed.

  Lemma sprintf_mark : forall m l, Sprintf other (mark_text m ++ l) = mark_text m ++ Sprintf other l.
  Proof. intros [| |] l; reflexivity. Qed.
  Lemma lines_text : forall m l, lines other (mark_text m) l = map (fun x => mark_text (fst x) ++ Sprintf other (snd x)) (map (pair m) l).
  Proof. intros m l. unfold lines. rewrite map_map. apply map_ext. intro x. apply sprintf_mark. Qed.

  Lemma slice_part : forall l i j, 0 <= i <= j -> j <= lenZ l -> slice l i j = Some (part l i j).
  Proof.
    intros l i j H1 H2. unfold slice. destruct (0 <=? i) eqn:E1; [|lia]. destruct (i <=? j) eqn:E2; [|lia]. destruct (j <=? lenZ l) eqn:E3; [|lia].
    reflexivity.
  Qed.

  Variable d : Diff.
  Hypothesis dA_a : dA d = a.
  Hypothesis dB_b : dB d = b.
  Notation piece := (fun x : mark * bytes => mark_text (fst x) ++ Sprintf other (snd x)).

  Lemma unifiedCode_ok : forall c, truthful0 a b c -> 0 <= I1 c -> I2 c <= lenZ a -> 0 <= J1 c -> J2 c <= lenZ b ->
    unifiedCode other d c = Some (map piece (bodyOf c)).
  Proof.
    intros c T H1 H2 H3 H4. destruct (truthful0_le c T) as [L1 L2]. unfold unifiedCode, bodyOf. rewrite dA_a, dB_b.
    rewrite (slice_part a) by lia. rewrite (slice_part b) by lia. cbn [obind].
    assert (L : forall m l, lines other (mark_text m) l = map piece (map (pair m) l)) by apply lines_text.
    destruct (Tag c =? tag_e); [now rewrite <- L|]. rewrite map_app.
    destruct ((Tag c =? tag_r) || (Tag c =? tag_d)); cbn [obind]; destruct ((Tag c =? tag_r) || (Tag c =? tag_i)); cbn [obind];
      rewrite <- ?L; reflexivity.
  Qed.
  Lemma unifiedCodes_ok : forall g si sj ei ej, Forall (truthful0 a b) g -> tiles si sj g ei ej -> 0 <= si -> 0 <= sj -> ei <= lenZ a -> ej <= lenZ b ->
    unifiedCodes other d g = Some (map piece (bodies g)).
  Proof.
    induction g as [|c g IH]; intros si sj ei ej F T H1 H2 H3 H4; [reflexivity|]. cbn [tiles] in T. destruct T as (T1 & T2 & T3).
    inversion F as [|? ? F1 F2]; subst. destruct (tiles0_le _ _ _ _ _ F2 T3). destruct (truthful0_le c F1).
    cbn [unifiedCodes]. rewrite unifiedCode_ok by (try exact F1; lia). cbn [obind]. rewrite (IH (I2 c) (J2 c) ei ej) by (try assumption; lia).
    cbn [obind]. unfold bodies. cbn [map List.concat]. now rewrite map_app.
  Qed.

  Lemma formatRange_range : forall i j, formatRangeUnified decimal i j = range decimal i (j - i).
  Proof.
    intros i j. unfold formatRangeUnified, range. destruct (j - i =? 1); [reflexivity|]. destruct (j - i =? 0) eqn:E; [|reflexivity].
    replace (i + 1 - 1) with i by lia. replace (j - i) with 0 by lia. reflexivity.
  Qed.

  Definition eol : bytes := if streq (Eol d) [] then [10] else Eol d.
  Lemma eol_eq : eolOf d = eol.
  Proof. unfold eolOf, eol. destruct (Eol d); reflexivity. Qed.

  Lemma unifiedGroup_ok : forall g si sj ei ej, g <> [] -> Forall (truthful0 a b) g -> tiles si sj g ei ej -> 0 <= si -> 0 <= sj -> ei <= lenZ a -> ej <= lenZ b ->
    oldStart (hunkOf g) = si /\ newStart (hunkOf g) = sj /\ oldLines (hunkOf g) = part a si ei /\ newLines (hunkOf g) = part b sj ej /\
    exists l, unifiedGroup decimal other d g = Some l /\ List.concat l = hunk_text decimal (Sprintf other) eol (hunkOf g).
  Proof.
    intros [|c g] si sj ei ej N F T H1 H2 H3 H4; [contradiction|]. destruct (tiles0_le _ _ _ _ _ F T) as [L1 L2].
    pose proof (tiles_first _ _ _ _ _ _ T) as [F1 F2]. pose proof (tiles_last _ _ _ _ _ _ T) as [E1 E2].
    assert (O : oldLines (hunkOf (c :: g)) = part a si ei) by (exact (bodies_old (c :: g) si sj ei ej F ltac:(lia) T)).
    assert (O' : newLines (hunkOf (c :: g)) = part b sj ej) by (exact (bodies_new (c :: g) si sj ei ej F ltac:(lia) T)).
    split; [exact F1|]. split; [exact F2|]. split; [exact O|]. split; [exact O'|].
    unfold unifiedGroup. rewrite (unifiedCodes_ok (c :: g) si sj ei ej) by assumption. cbn [obind]. eexists. split; [reflexivity|].
    unfold hunk_text. rewrite O, O', !lenZ_part by lia. rewrite !formatRange_range, E1, E2, eol_eq.
    cbn [hunkOf oldStart newStart body]. rewrite F1, F2. cbn [List.concat]. rewrite <- !app_assoc. reflexivity.
  Qed.

  Lemma grouped_bounds : forall n i j t gs, grouped n a b i j t gs -> i <= lenZ a /\ j <= lenZ b.
  Proof.
    intros n i j t gs G. induction G as [i j t H1 H2 _ _|i j t si sj ei ej g gs H1 H2 _ _ T F _ _ _ _ _ _ IH]; [lia|].
    destruct (tiles0_le _ _ _ _ _ F T). lia.
  Qed.

  Lemma unchanged_app : forall l l', unchanged (map (pair Same) l ++ l') = lenZ l + unchanged l'.
  Proof. induction l as [|x l IH]; intro l'; cbn [map app unchanged]; [reflexivity|]. rewrite IH, lenZ_cons. lia. Qed.
  Lemma body_change : forall c, truthful0 a b c -> Tag c <> tag_e -> 0 <= I1 c -> I2 c <= lenZ a -> 0 <= J1 c -> J2 c <= lenZ b ->
    exists x r, bodyOf c = x :: r /\ Forall (fun y => fst y <> Same) (x :: r).
  Proof.
    intros c T N H1 H2 H3 H4. unfold bodyOf. destruct (Tag c =? tag_e) eqn:E; [lia|].
    assert (P : forall m l, m <> Same -> Forall (fun y : mark * bytes => fst y <> Same) (map (pair m) l)).
    { intros m l Hm. apply Forall_forall. intros y Hy. apply in_map_iff in Hy. destruct Hy as (x & <- & _). exact Hm. }
    assert (Q : forall l i j, i < j -> 0 <= i -> j <= lenZ l -> exists x r, part l i j = x :: r).
    { intros l i j Q1 Q2 Q3. pose proof (lenZ_part l i j Q2 ltac:(lia) Q3) as L. destruct (part l i j) as [|x r]; [cbn in L; lia|eauto]. }
    destruct T as [[H|[H|[H|H]]]|H]; destruct H as (H & H'); try contradiction; rewrite H; cbn [Z.eqb orb tag_r tag_d tag_i Pos.eqb].
    - destruct (Q a (I1 c) (I2 c)) as (x & r & E1); try lia. rewrite E1. cbn [map app]. eexists. eexists. split; [reflexivity|].
      rewrite app_comm_cons. apply Forall_app. split; [exact (P Del (x :: r) ltac:(discriminate))|apply P; discriminate].
    - destruct (Q a (I1 c) (I2 c)) as (x & r & E1); try lia. rewrite E1. cbn [map app]. rewrite app_nil_r. eexists. eexists. split; [reflexivity|].
      exact (P Del (x :: r) ltac:(discriminate)).
    - destruct (Q b (J1 c) (J2 c)) as (x & r & E1); try lia. rewrite E1. cbn [map app]. eexists. eexists. split; [reflexivity|].
      exact (P Ins (x :: r) ltac:(discriminate)).
  Qed.
  Lemma unchanged_change : forall x r, fst x <> Same -> unchanged (x :: r) = 0.
  Proof. intros [[| |] x] r H; [now destruct H|reflexivity|reflexivity]. Qed.

  Lemma bodies_app : forall g g', bodies (g ++ g') = bodies g ++ bodies g'.
  Proof. intros. unfold bodies. now rewrite map_app, concat_app. Qed.
  Lemma bodies_cons : forall c g, bodies (c :: g) = bodyOf c ++ bodies g.
  Proof. reflexivity. Qed.

  (** the context of a hunk is that of its group *)
  Lemma lead_body : forall g si sj ei ej, Forall (truthful0 a b) g -> alt None g -> changes g <> [] -> tiles si sj g ei ej ->
    0 <= si -> 0 <= sj -> ei <= lenZ a -> ej <= lenZ b -> unchanged (bodies g) = lead g.
  Proof.
    intros g si sj ei ej F A C T H1 H2 H3 H4. destruct g as [|c g]; [now destruct C|]. cbn [tiles] in T. destruct T as (T1 & T2 & T3).
    inversion F as [|? ? F1 F2]; subst. destruct (tiles0_le _ _ _ _ _ F2 T3). destruct (truthful0_le c F1). rewrite bodies_cons. cbn [lead].
    destruct (Tag c =? tag_e) eqn:E.
    - destruct g as [|c' g].
      + exfalso. apply C. unfold changes. cbn. now rewrite E.
      + cbn [tiles] in T3. destruct T3 as (T4 & T5 & T6). inversion F2 as [|? ? F3 F4]; subst.
        destruct (tiles0_le _ _ _ _ _ F4 T6). destruct (truthful0_le c' F3). cbn [alt] in A. destruct A as (_ & A & _). rewrite E in A.
        destruct (Tag c' =? tag_e) eqn:E'; [now destruct A|].
        destruct (body_change c') as (x & r & Ex & Hx); try lia; [exact F3|]. rewrite bodies_cons, Ex. unfold bodyOf. rewrite E.
        rewrite unchanged_app, lenZ_part by lia. cbn [app]. inversion Hx. rewrite unchanged_change by assumption. lia.
    - destruct (body_change c) as (x & r & Ex & Hx); try lia; [exact F1|]. rewrite Ex. cbn [app]. inversion Hx. now apply unchanged_change.
  Qed.
  Lemma tiles_split : forall g g' si sj ei ej, tiles si sj (g ++ g') ei ej -> exists mi mj, tiles si sj g mi mj /\ tiles mi mj g' ei ej.
  Proof.
    induction g as [|c g IH]; intros g' si sj ei ej T; cbn [app tiles] in T.
    - exists si, sj. split; [cbn; auto|exact T].
    - destruct T as (T1 & T2 & T3). destruct (IH _ _ _ _ _ T3) as (mi & mj & T4 & T5). exists mi, mj. split; [cbn; auto|exact T5].
  Qed.
  Lemma trail_body : forall g si sj ei ej, Forall (truthful0 a b) g -> alt None g -> changes g <> [] -> tiles si sj g ei ej ->
    0 <= si -> 0 <= sj -> ei <= lenZ a -> ej <= lenZ b -> unchanged (rev (bodies g)) = trail g.
  Proof.
    intros g si sj ei ej F A C T H1 H2 H3 H4. destruct (rev g) as [|c g1] eqn:R.
    - apply (f_equal (@rev _)) in R. rewrite rev_involutive in R. subst g. now destruct C.
    - unfold trail. rewrite R. apply (f_equal (@rev _)) in R. rewrite rev_involutive in R. cbn [rev] in R.
      set (g0 := rev g1) in *. rewrite R in *. rewrite bodies_app, rev_app_distr. unfold bodies at 1. cbn [map List.concat]. rewrite app_nil_r.
      destruct (tiles_split _ _ _ _ _ _ T) as (mi & mj & T1 & T2). cbn [tiles] in T2. destruct T2 as (T3 & T4 & T5 & T6).
      apply Forall_app in F. destruct F as [F1 F2]. inversion F2 as [|? ? F3 _]; subst. destruct (tiles0_le _ _ _ _ _ F1 T1).
      destruct (truthful0_le c F3). cbn [lead]. destruct (Tag c =? tag_e) eqn:E.
      + destruct g1 as [|c' g2] eqn:Eg.
        * exfalso. apply C. unfold g0. unfold changes. cbn. now rewrite E.
        * unfold g0 in *. cbn [rev] in *. rewrite <- app_assoc in A. apply alt_app in A. destruct A as [_ A]. cbn [app alt] in A.
          destruct A as (_ & A & _). rewrite E in A. destruct (Tag c' =? tag_e) eqn:E'; [now destruct A|].
          destruct (tiles_split _ _ _ _ _ _ T1) as (ki & kj & T7 & T8). cbn [tiles] in T8. destruct T8 as (T9 & T10 & T11 & T12).
          apply Forall_app in F1. destruct F1 as [F4 F5]. inversion F5 as [|? ? F6 _]; subst. destruct (tiles0_le _ _ _ _ _ F4 T7).
          destruct (truthful0_le c' F6).
          destruct (body_change c') as (x & r & Ex & Hx); try lia; [exact F6|].
          rewrite bodies_app, rev_app_distr. unfold bodies at 1. cbn [map List.concat]. rewrite app_nil_r, Ex.
          unfold bodyOf. rewrite E. rewrite <- map_rev, unchanged_app.
          assert (L : lenZ (rev (part a (I1 c) (I2 c))) = I2 c - I1 c).
          { unfold lenZ. rewrite rev_length. apply lenZ_part; lia. }
          rewrite L. assert (U : unchanged (rev (x :: r) ++ rev (bodies (rev g2))) = 0).
          { destruct (rev (x :: r)) as [|y s] eqn:Ey; [apply (f_equal (@List.length _)) in Ey; rewrite rev_length in Ey; discriminate|].
            cbn [app]. apply unchanged_change. rewrite Forall_forall in Hx. apply Hx. apply in_rev. rewrite Ey. now left. }
          rewrite U. lia.
      + destruct (body_change c) as (x & r & Ex & Hx); try lia; [exact F3|]. rewrite Ex.
        destruct (rev (x :: r)) as [|y s] eqn:Ey; [apply (f_equal (@List.length _)) in Ey; rewrite rev_length in Ey; discriminate|].
        cbn [app]. apply unchanged_change. rewrite Forall_forall in Hx. apply Hx. apply in_rev. rewrite Ey. now left.
  Qed.

  (** a hunk shows a change *)
  Lemma change_body : forall g si sj ei ej, Forall (truthful0 a b) g -> changes g <> [] -> tiles si sj g ei ej ->
    0 <= si -> 0 <= sj -> ei <= lenZ a -> ej <= lenZ b -> exists l, In l (bodies g) /\ fst l <> Same.
  Proof.
    induction g as [|c g IH]; intros si sj ei ej F C T H1 H2 H3 H4; [now destruct C|]. cbn [tiles] in T. destruct T as (T1 & T2 & T3).
    inversion F as [|? ? F1 F2]; subst. destruct (tiles0_le _ _ _ _ _ F2 T3). destruct (truthful0_le c F1). rewrite bodies_cons.
    destruct (Tag c =? tag_e) eqn:E.
    - destruct (IH (I2 c) (J2 c) ei ej F2) as (l & Hl & Hs); try assumption; try lia.
      + intro F0. apply C. unfold changes in *. cbn [filter]. rewrite E. exact F0.
      + exists l. split; [apply in_or_app; now right|exact Hs].
    - destruct (body_change c) as (x & r & Ex & Hx); try lia; [exact F1|]. rewrite Ex. exists x. inversion Hx. split; [now left|assumption].
  Qed.

  Lemma unifiedGroups_ok : forall n i j t gs, grouped n a b i j t gs -> 0 <= i -> 0 <= j ->
    patches a b i j (map hunkOf gs) /\ Forall (hunk_ok n) (map hunkOf gs) /\
    exists l, unifiedGroups decimal other d gs = Some l /\ List.concat l = List.concat (map (hunk_text decimal (Sprintf other) eol) (map hunkOf gs)).
  Proof.
    intros n i j t gs G. induction G as [i j t H1 H2 H3 _|i j t si sj ei ej g gs H1 H2 P L T F A C Ld Tl _ G IH]; intros Hi Hj.
    - cbn [map]. split; [apply patches_end; [lia|lia|exact H3]|]. split; [constructor|]. exists []. split; reflexivity.
    - destruct (tiles0_le _ _ _ _ _ F T) as [L1 L2]. destruct (grouped_bounds _ _ _ _ _ G) as [B1 B2].
      destruct (IH ltac:(lia) ltac:(lia)) as (P' & K' & l' & E' & X').
      assert (N : g <> []) by (intro N; subst g; now apply C). apply alt_alternate in A.
      destruct (unifiedGroup_ok g si sj ei ej N F T ltac:(lia) ltac:(lia) B1 B2) as (O1 & O2 & O3 & O4 & l & E & X).
      cbn [map]. split; [|split].
      + apply patches_next; rewrite ?O1, ?O2, ?O3, ?O4, ?lenZ_part by lia; try lia.
        * exact P.
        * now replace (si + (ei - si)) with ei by lia.
        * now replace (sj + (ej - sj)) with ej by lia.
        * replace (si + (ei - si)) with ei by lia. replace (sj + (ej - sj)) with ej by lia. exact P'.
      + constructor; [|exact K']. assert (Bd : body (hunkOf g) = bodies g) by (destruct g; [contradiction|reflexivity]).
        unfold hunk_ok. rewrite Bd. split; [eapply change_body; try eassumption; lia|].
        rewrite (lead_body g si sj ei ej), (trail_body g si sj ei ej) by (assumption || lia). auto.
      + cbn [unifiedGroups]. rewrite E. cbn [obind]. rewrite E'. cbn [obind]. eexists. split; [reflexivity|].
        rewrite concat_app, X, X'. reflexivity.
  Qed.
End TextProofs.

(** ** fmt.Sprintf on a line *)
Section SprintfProofs.
  Variable other : bytes -> bytes.
  Lemma sprintf_plain : forall s, no_percent s -> Sprintf other s = s.
  Proof.
    intros s. unfold no_percent, Sprintf. induction s as [|c s IH]; intro H; [reflexivity|]. cbn [sprintf].
    destruct (c =? 37) eqn:E; [exfalso; apply H; left; lia|]. rewrite IH; [reflexivity|]. intro F. apply H. now right.
  Qed.
  Lemma sprintf_flags : forall fl w r, forallb isFlag fl = true -> sprintf other (Some w) (fl ++ r) = sprintf other (Some w) r.
  Proof.
    induction fl as [|c fl IH]; intros w r H; [reflexivity|]. cbn [forallb] in H. apply andb_true_iff in H. destruct H as [H1 H2].
    cbn [app sprintf]. rewrite H1. now apply IH.
  Qed.
  Lemma flags_all : forall fl, flags fl -> forallb isFlag fl = true.
  Proof.
    intros fl H. apply forallb_forall. intros c C. specialize (H c C). vm_compute in H. unfold isFlag.
    destruct H as [<-|[<-|[<-|[<-|[<-|[]]]]]]; reflexivity.
  Qed.
  Lemma letter_is : forall c, letter c -> isLetter c = true.
  Proof. unfold letter, isLetter. intros c H. rewrite orb_true_iff, !andb_true_iff. lia. Qed.
  Lemma flag_not : forall c, isFlag c = true -> c <> 37 /\ c <> 33 /\ isLetter c = false.
  Proof.
    intros c H. unfold isFlag in H. cbn in H. rewrite ?orb_true_iff, ?Z.eqb_eq in H.
    assert (c = 35 \/ c = 48 \/ c = 43 \/ c = 45 \/ c = 32) as HC by lia; destruct HC as [E|[E|[E|[E|E]]]]; subst c; repeat split; try lia; reflexivity.
  Qed.
  Lemma letter_not : forall c, isLetter c = true -> isFlag c = false /\ c <> 37 /\ c <> 33.
  Proof.
    intros c H. destruct (isFlag c) eqn:E; [destruct (flag_not c E) as (_ & _ & F); congruence|]. split; [reflexivity|].
    unfold isLetter in H. rewrite orb_true_iff, !andb_true_iff in H. lia.
  Qed.
  Lemma percent_verb : forall fl c r, forallb isFlag fl = true -> isLetter c = true ->
    Sprintf other (37 :: fl ++ c :: r) = bs "%!" ++ [c] ++ bs "(MISSING)" ++ Sprintf other r.
  Proof.
    intros fl c r H L. unfold Sprintf. cbn [sprintf Z.eqb Pos.eqb]. rewrite sprintf_flags by exact H. destruct (letter_not c L) as (L1 & L2 & _).
    cbn [sprintf]. rewrite L1, L. destruct (c =? 37) eqn:E; [lia|]. reflexivity.
  Qed.
  Lemma percent_percent : forall fl r, forallb isFlag fl = true -> Sprintf other (37 :: fl ++ 37 :: r) = 37 :: Sprintf other r.
  Proof. intros fl r H. unfold Sprintf. cbn [sprintf Z.eqb Pos.eqb]. rewrite sprintf_flags by exact H. reflexivity. Qed.
  Lemma percent_end : forall fl, forallb isFlag fl = true -> Sprintf other (37 :: fl) = bs "%!(NOVERB)".
  Proof.
    intros fl H. unfold Sprintf. cbn [sprintf Z.eqb Pos.eqb]. rewrite <- (app_nil_r fl) at 2. rewrite sprintf_flags by exact H. reflexivity.
  Qed.

  (** No line gets longer by something in front without a '!' *)
  Lemma sprintf_no_shift : forall r, plain r -> forall p, p <> [] -> ~ In 33 p -> Sprintf other r <> p ++ r.
  Proof.
    intros r P. induction P as [|c r N P IH|fl H|fl c r H K P IH]; intros p Np Hp E; try apply flags_all in H.
    - cbn in E. apply Np. symmetry in E. apply app_eq_nil in E. apply E.
    - unfold Sprintf in E. cbn [sprintf] in E. destruct (c =? 37) eqn:Ec; [lia|]. fold (Sprintf other r) in E.
      destruct p as [|x p]; [contradiction|]. cbn [app] in E. injection E as -> E.
      apply (IH (p ++ [x])).
      + destruct p; discriminate.
      + intro F. apply Hp. apply in_app_iff in F. destruct F as [F|[F|[]]]; [now right|now left].
      + rewrite E, <- app_assoc. reflexivity.
    - rewrite percent_end in E by exact H. destruct p as [|x [|y p]]; [contradiction| |].
      + cbn [app bs] in E. injection E as _ E. discriminate E.
      + cbn [app bs] in E. injection E as _ E _. apply Hp. right. left. now rewrite <- E.
    - destruct K as [->|L]; [|apply letter_is in L].
      + rewrite percent_percent in E by exact H. destruct p as [|x p]; [contradiction|]. cbn [app] in E. injection E as <- E.
        apply (IH (p ++ 37 :: fl ++ [37])).
        * destruct p; discriminate.
        * intro F. apply in_app_iff in F. destruct F as [F|[F|F]]; [apply Hp; now right|discriminate|].
          apply in_app_iff in F. destruct F as [F|[F|[]]]; [|discriminate]. rewrite forallb_forall in H. apply H in F. destruct (flag_not _ F) as (_ & F' & _). lia.
        * rewrite E. rewrite <- !app_assoc. cbn [app]. now rewrite <- app_assoc.
      + rewrite percent_verb in E by assumption. destruct p as [|x [|y p]]; [contradiction| |].
        * cbn [app bs] in E. injection E as _ E. discriminate E.
        * cbn [app bs] in E. injection E as _ E _. apply Hp. right. left. now rewrite <- E.
  Qed.
  Lemma sprintf_changes : forall r, plain r -> In 37 r -> Sprintf other r <> r.
  Proof.
    intros r P. induction P as [|c r N P IH|fl H|fl c r H K P IH]; intros I E; try apply flags_all in H.
    - destruct I.
    - unfold Sprintf in E. cbn [sprintf] in E. destruct (c =? 37) eqn:Ec; [lia|]. fold (Sprintf other r) in E. injection E as E.
      destruct I as [I|I]; [lia|]. now apply IH.
    - rewrite percent_end in E by exact H. destruct fl as [|x fl]; [discriminate|]. cbn [app bs] in E. injection E as E _.
      cbn [forallb] in H. apply andb_true_iff in H. destruct H as [H _]. destruct (flag_not _ H) as (_ & H' & _). apply H'. now rewrite <- E.
    - destruct K as [->|L]; [|apply letter_is in L].
      + rewrite percent_percent in E by exact H. injection E as E. apply (sprintf_no_shift r P (fl ++ [37])).
        * destruct fl; discriminate.
        * intro F. apply in_app_iff in F. destruct F as [F|[F|[]]]; [|discriminate]. rewrite forallb_forall in H. apply H in F. destruct (flag_not _ F) as (_ & F' & _). lia.
        * now rewrite E, <- app_assoc.
      + rewrite percent_verb in E by assumption. destruct fl as [|x fl]; cbn [app bs] in E; injection E as E _.
        * destruct (letter_not c L) as (_ & _ & L'). apply L'. now rewrite <- E.
        * cbn [forallb] in H. apply andb_true_iff in H. destruct H as [H _]. destruct (flag_not _ H) as (_ & H' & _). apply H'. now rewrite <- E.
  Qed.
End SprintfProofs.
