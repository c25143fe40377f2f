(** Proofs about the text of context diffs, about WriteUnifiedDiff and about SplitLines. *)
From Verif Require Import Base DiffModel DiffSpec DiffProofs DiffBlockProofs DiffCodeProofs DiffGroupProofs DiffTextProofs.

Section ContextProofs.
  Variable decimal : Z -> bytes.
  Variable other : bytes -> bytes.
  Variable a b : list bytes.
  Variable d : Diff.
  Hypothesis dA_a : dA d = a.
  Hypothesis dB_b : dB d = b.
  Notation show := (Sprintf other).
  Notation piece := (fun x : bytes * bytes => fst x ++ show (snd x)).

  Lemma sides : forall g si sj ei ej, Forall (truthful0 a b) g -> tiles si sj g ei ej -> 0 <= si -> 0 <= sj ->
    map snd (oldSide a g) = part a si ei /\ map snd (newSide b g) = part b sj ej.
  Proof.
    induction g as [|c g IH]; intros si sj ei ej F T H1 H2; cbn [tiles] in T.
    - cbn. rewrite !part_empty by lia. auto.
    - apply Forall_cons_iff in F. destruct F as [F1 F2]. destruct T as (T1 & T2 & T3). destruct (tiles0_le _ _ _ _ _ _ _ F2 T3). destruct (truthful0_le _ _ c F1).
      destruct (IH (I2 c) (J2 c) ei ej F2 T3 ltac:(lia) ltac:(lia)) as [E1 E2]. unfold oldSide, newSide in *. cbn [map List.concat].
      rewrite !map_app, E1, E2, !map_map. cbn [snd]. rewrite !map_id. subst si sj. split; apply part_app; lia.
  Qed.

  Lemma sprintf_sign : forall c l, show (sign c ++ l) = sign c ++ show l.
  Proof. intros c l. unfold sign. destruct (Tag c =? tag_e); [reflexivity|]. destruct (Tag c =? tag_r); [reflexivity|]. destruct (Tag c =? tag_d); reflexivity. Qed.
  Lemma lines_sign : forall c l, lines other (sign c) l = map piece (map (pair (sign c)) l).
  Proof. intros c l. unfold lines. rewrite map_map. apply map_ext. intro x. apply sprintf_sign. Qed.
  Lemma prefix_sign : forall c, truthful0 a b c -> prefixOf (Tag c) = sign c.
  Proof. intros c [[H|[H|[H|H]]]|H]; destruct H as [H _]; unfold prefixOf, sign; rewrite H; reflexivity. Qed.

  Lemma contextLines_ok : forall g si sj ei ej, Forall (truthful0 a b) g -> tiles si sj g ei ej -> 0 <= si -> 0 <= sj -> ei <= lenZ a -> ej <= lenZ b ->
    contextLines other d true g = Some (map piece (oldSide a g)) /\ contextLines other d false g = Some (map piece (newSide b g)).
  Proof.
    induction g as [|c g IH]; intros si sj ei ej F T H1 H2 H3 H4; [split; reflexivity|]. cbn [tiles] in T. destruct T as (T1 & T2 & T3).
    apply Forall_cons_iff in F. destruct F as [F1 F2]. destruct (tiles0_le _ _ _ _ _ _ _ F2 T3). destruct (truthful0_le _ _ c F1).
    cbn [contextLines]. destruct (IH (I2 c) (J2 c) ei ej) as [E1 E2]; try assumption; try lia. rewrite E1, E2, dA_a, dB_b.
    rewrite (slice_part a), (slice_part b) by lia. cbn [obind]. rewrite (prefix_sign c F1), !lines_sign.
    unfold oldSide, newSide. cbn [map List.concat]. rewrite !map_app.
    split; destruct (Tag c =? _) eqn:E; cbn [obind]; try reflexivity.
    - rewrite (part_empty a); [reflexivity|]. destruct F1 as [[F1|[F1|[F1|F1]]]|F1]; destruct F1 as [K F1]; rewrite K in E; try discriminate E; lia.
    - rewrite (part_empty b); [reflexivity|]. destruct F1 as [[F1|[F1|[F1|F1]]]|F1]; destruct F1 as [K F1]; rewrite K in E; try discriminate E; lia.
  Qed.

  Lemma part_cons : forall l i j, 0 <= i < j -> j <= lenZ l -> exists x r, part l i j = x :: r.
  Proof.
    intros l i j H1 H2. pose proof (lenZ_part l i j ltac:(lia) ltac:(lia) H2) as L. destruct (part l i j) as [|x r]; [cbn in L; lia|eauto].
  Qed.
  Definition spaces (l : list (bytes * bytes)) : bool := forallb (fun x => streq (fst x) (bs "  ")) l.
  Lemma spaces_app : forall l l', spaces (l ++ l') = spaces l && spaces l'.
  Proof. intros. apply forallb_app. Qed.
  Lemma spaces_same : forall l, spaces (map (pair (bs "  ")) l) = true.
  Proof. induction l as [|x l IH]; [reflexivity|]. exact IH. Qed.

  Lemma shown : forall g si sj ei ej, Forall (truthful0 a b) g -> tiles si sj g ei ej -> 0 <= si -> 0 <= sj -> ei <= lenZ a -> ej <= lenZ b ->
    existsb (fun c => (Tag c =? tag_r) || (Tag c =? tag_d)) g = negb (spaces (oldSide a g)) /\
    existsb (fun c => (Tag c =? tag_r) || (Tag c =? tag_i)) g = negb (spaces (newSide b g)).
  Proof.
    induction g as [|c g IH]; intros si sj ei ej F T H1 H2 H3 H4; [split; reflexivity|]. cbn [tiles] in T. destruct T as (T1 & T2 & T3).
    apply Forall_cons_iff in F. destruct F as [F1 F2]. destruct (tiles0_le _ _ _ _ _ _ _ F2 T3). destruct (truthful0_le _ _ c F1).
    cbn [existsb]. destruct (IH (I2 c) (J2 c) ei ej) as [E1 E2]; try assumption; try lia. rewrite E1, E2.
    unfold oldSide, newSide. cbn [map List.concat]. rewrite !spaces_app, !negb_andb. fold (oldSide a g) (newSide b g).
    destruct F1 as [[F1|[F1|[F1|F1]]]|F1]; destruct F1 as [K F1]; unfold sign; rewrite K; cbn [Z.eqb Pos.eqb tag_e tag_r tag_d tag_i orb].
    - rewrite !spaces_same. split; reflexivity.
    - destruct (part_cons a (I1 c) (I2 c)) as (x & r & E); try lia. destruct (part_cons b (J1 c) (J2 c)) as (x' & r' & E'); try lia.
      rewrite E, E'. split; reflexivity.
    - destruct (part_cons a (I1 c) (I2 c)) as (x & r & E); try lia. rewrite E, (part_empty b) by lia. split; reflexivity.
    - destruct (part_cons b (J1 c) (J2 c)) as (x & r & E); try lia. rewrite E, (part_empty a) by lia. split; reflexivity.
    - rewrite !spaces_same. split; reflexivity.
  Qed.

  Lemma contextSide_ok : forall g si sj ei ej, Forall (truthful0 a b) g -> tiles si sj g ei ej -> 0 <= si -> 0 <= sj -> ei <= lenZ a -> ej <= lenZ b ->
    (exists l, contextSide other d true g = Some l /\ List.concat l = side_text show (oldSide a g)) /\
    (exists l, contextSide other d false g = Some l /\ List.concat l = side_text show (newSide b g)).
  Proof.
    intros g si sj ei ej F T H1 H2 H3 H4. destruct (contextLines_ok g si sj ei ej F T H1 H2 H3 H4) as [E1 E2].
    destruct (shown g si sj ei ej F T H1 H2 H3 H4) as [S1 S2]. unfold contextSide, side_text. rewrite S1, S2, E1, E2.
    fold (spaces (oldSide a g)) (spaces (newSide b g)).
    split; [destruct (spaces (oldSide a g))|destruct (spaces (newSide b g))]; cbn [negb]; eexists; split; reflexivity.
  Qed.

  Lemma formatRangeContext_range : forall i j, i <= j -> formatRangeContext decimal i j = range_context decimal i (j - i).
  Proof.
    intros i j H. unfold formatRangeContext, range_context. destruct (j - i =? 0) eqn:E.
    - destruct (j - i <=? 1) eqn:E1; [|lia]. f_equal. lia.
    - destruct (j - i =? 1) eqn:E2.
      + destruct (j - i <=? 1) eqn:E1; [reflexivity|lia].
      + destruct (j - i <=? 1) eqn:E1; [lia|]. do 3 f_equal. lia.
  Qed.
  Lemma sprintf_stars : forall r, show (bs "***************" ++ r) = bs "***************" ++ show r.
  Proof. reflexivity. Qed.

  Lemma contextGroup_ok : forall g si sj ei ej, g <> [] -> Forall (truthful0 a b) g -> tiles si sj g ei ej -> 0 <= si -> 0 <= sj -> ei <= lenZ a -> ej <= lenZ b ->
    exists l, contextGroup decimal other d g = Some l /\ List.concat l = section_text decimal show a b (eol d) g.
  Proof.
    intros [|c g] si sj ei ej N F T H1 H2 H3 H4; [contradiction|]. destruct (tiles0_le _ _ _ _ _ _ _ F T) as [L1 L2].
    pose proof (tiles_first _ _ _ _ _ _ T) as [F1 F2]. pose proof (tiles_last g c si sj ei ej T) as [E1 E2].
    destruct (contextSide_ok (c :: g) si sj ei ej F T H1 H2 H3 H4) as [(l1 & K1 & X1) (l2 & K2 & X2)].
    destruct (sides (c :: g) si sj ei ej F T H1 H2) as [M1 M2].
    assert (N1 : lenZ (oldSide a (c :: g)) = ei - si).
    { rewrite <- (lenZ_part a si ei) by lia. rewrite <- M1. unfold lenZ. now rewrite map_length. }
    assert (N2 : lenZ (newSide b (c :: g)) = ej - sj).
    { rewrite <- (lenZ_part b sj ej) by lia. rewrite <- M2. unfold lenZ. now rewrite map_length. }
    unfold contextGroup. rewrite K1, K2. cbn [obind]. eexists. split; [reflexivity|].
    unfold section_text. rewrite N1, N2, E1, E2, F1, F2, <- !formatRangeContext_range by lia. rewrite eol_eq, sprintf_stars.
    cbn [List.concat app]. rewrite concat_app. cbn [List.concat]. rewrite X1, X2. rewrite <- !app_assoc. reflexivity.
  Qed.
  Lemma contextGroups_ok : forall n i j t gs, grouped n a b i j t gs -> 0 <= i -> 0 <= j ->
    exists l, contextGroups decimal other d gs = Some l /\ List.concat l = List.concat (map (section_text decimal show a b (eol d)) gs).
  Proof.
    intros n i j t gs G. induction G as [i j t H1 H2 H3 _|i j t si sj ei ej g gs H1 H2 P L T F A C Ld Tl _ G IH]; intros Hi Hj.
    - exists []. split; reflexivity.
    - destruct (tiles0_le _ _ _ _ _ _ _ F T) as [L1 L2]. destruct (grouped_bounds _ _ _ _ _ _ _ G) as [B1 B2].
      destruct (IH ltac:(lia) ltac:(lia)) as (l' & E' & X').
      assert (N : g <> []) by (intro N; subst g; now apply C).
      destruct (contextGroup_ok g si sj ei ej N F T ltac:(lia) ltac:(lia) B1 B2) as (l & E & X).
      cbn [contextGroups map List.concat]. rewrite E, E'. cbn [obind]. eexists. split; [reflexivity|]. rewrite concat_app, X, X'. reflexivity.
  Qed.
End ContextProofs.

(** * Writing *)
Lemma bufSize_val : Z.of_nat bufSize = 4096.
Proof. reflexivity. Qed.
Local Opaque bufSize.

Section WriterProofs.
  Variable W error : Type.
  Variable Write : W -> bytes -> W * option error.
  Notation sent := (sent W error Write).

  Lemma sent_one : forall w t w' s w2, sent w t w' -> Write w' s = (w2, None) -> sent w (t ++ s) w2.
  Proof.
    intros w t w' s w2 H. induction H as [w|w t w1 r w' E H IH]; intro K.
    - rewrite app_nil_l, <- (app_nil_r s). eapply sent_more; [exact K|apply sent_nil].
    - rewrite <- app_assoc. eapply sent_more; [exact E|now apply IH].
  Qed.

  (** The state of the buffer after the bytes p: all of them are sent or buffered, or an error stopped everything *)
  Definition holds (w : W) (p : bytes) (b : bufio W error) : Prop :=
    (List.length (buffered _ _ b) <= bufSize)%nat /\
    match bufErr _ _ b with
    | None => exists q, p = q ++ buffered _ _ b /\ sent w q (under _ _ b)
    | Some e => exists q t r w1, p = q ++ t ++ r /\ sent w q w1 /\ Write w1 t = (under _ _ b, Some e)
    end.

  Lemma holds_flush : forall w p b, holds w p b -> holds w p (Flush _ _ Write b) /\
    (bufErr _ _ (Flush _ _ Write b) = None -> buffered _ _ (Flush _ _ Write b) = []).
  Proof.
    intros w p [t e u] [L H]. cbn [buffered bufErr under] in *. unfold Flush. cbn [buffered bufErr under]. destruct e as [e|].
    - split; [split; [exact L|exact H]|discriminate].
    - destruct H as (q & -> & S'). destruct t as [|c t].
      + split; [|reflexivity]. split; [exact L|]. exists q. split; [reflexivity|exact S'].
      + destruct (Write u (c :: t)) as [u' [e|]] eqn:E.
        * split; [|discriminate]. split; [exact L|]. cbn [bufErr under]. exists q, (c :: t), [], u. rewrite app_nil_r. auto.
        * split; [|reflexivity]. split; [cbn; lia|]. cbn [bufErr under buffered]. exists (q ++ c :: t). rewrite app_nil_r. split; [reflexivity|].
          eapply sent_one; eassumption.
  Qed.

  Lemma holds_string : forall fuel s w p b, holds w p b -> (List.length s < fuel)%nat ->
    (bufErr _ _ b = None -> (fuel <= 1 + List.length s)%nat -> (0 < bufSize - List.length (buffered _ _ b))%nat) ->
    exists s1 s2, s = s1 ++ s2 /\ holds w (p ++ s1) (WriteString _ _ Write fuel b s) /\
      (bufErr _ _ (WriteString _ _ Write fuel b s) = None -> s2 = []).
  Proof.
    pose proof bufSize_val as BV. induction fuel as [|fuel IH]; intros s w p b H L A; [lia|]. cbn [WriteString].
    destruct (bufErr _ _ b) as [e|] eqn:E.
    - exists [], s. rewrite app_nil_r. split; [reflexivity|]. split; [exact H|]. rewrite E. discriminate.
    - specialize (A eq_refl). set (av := (bufSize - List.length (buffered _ _ b))%nat) in *.
      destruct H as [H1 H2]. rewrite E in H2. destruct H2 as (q & -> & S').
      destruct (av <? List.length s)%nat eqn:K.
      + apply Nat.ltb_lt in K.
        assert (H' : holds w ((q ++ buffered _ _ b) ++ firstn av s) (mkBufio _ _ (buffered _ _ b ++ firstn av s) None (under _ _ b))).
        { split; cbn [buffered bufErr under].
          - rewrite app_length, firstn_length. lia.
          - exists q. rewrite <- app_assoc. auto. }
        destruct (holds_flush _ _ _ H') as [H2 H3]. clear H'.
        destruct (IH (skipn av s) _ _ _ H2) as (s1 & s2 & Es & Hs & Ns).
        * rewrite skipn_length. destruct (Nat.eq_dec fuel 0) as [->|]; [lia|]. assert (av = 0 \/ 0 < av)%nat as [Z0|] by lia; [|lia].
          destruct (le_lt_dec (S fuel) (1 + List.length s)); [specialize (A l); lia|lia].
        * intros E' _. rewrite (H3 E'). cbn [List.length]. lia.
        * exists (firstn av s ++ s1), s2. rewrite <- app_assoc, <- Es, firstn_skipn. split; [reflexivity|]. rewrite app_assoc. auto.
      + apply Nat.ltb_ge in K. exists s, []. rewrite app_nil_r. split; [reflexivity|]. split; [|reflexivity].
        split; cbn [buffered bufErr under].
        * rewrite app_length. lia.
        * exists q. rewrite <- app_assoc. auto.
  Qed.
  Lemma string_ok : forall s w p b, holds w p b ->
    exists s1 s2, s = s1 ++ s2 /\ holds w (p ++ s1) (WriteString _ _ Write (2 + List.length s) b s) /\
      (bufErr _ _ (WriteString _ _ Write (2 + List.length s) b s) = None -> s2 = []).
  Proof. intros s w p b H. apply holds_string; [exact H|lia|lia]. Qed.

  Lemma pieces_ok : forall l w p b, holds w p b -> bufErr _ _ b = None ->
    exists s1 s2, List.concat l = s1 ++ s2 /\ holds w (p ++ s1) (fst (writePieces _ _ Write b l)) /\
      bufErr _ _ (fst (writePieces _ _ Write b l)) = snd (writePieces _ _ Write b l) /\
      (snd (writePieces _ _ Write b l) = None -> s2 = []).
  Proof.
    induction l as [|s l IH]; intros w p b H N.
    - exists [], []. cbn [writePieces fst snd List.concat]. rewrite (app_nil_r p). split; [reflexivity|]. split; [exact H|]. split; [exact N|reflexivity].
    - cbn [writePieces List.concat]. destruct (string_ok s w p b H) as (s1 & s2 & E & H' & N').
      destruct (bufErr _ _ (WriteString _ _ Write (2 + List.length s) b s)) as [e|] eqn:K; cbn [fst snd].
      + exists s1, (s2 ++ List.concat l). split; [now rewrite E at 1; rewrite <- app_assoc|]. split; [exact H'|]. split; [exact K|discriminate].
      + rewrite (N' eq_refl), app_nil_r in E. subst s1. destruct (IH _ _ _ H' K) as (t1 & t2 & E1 & H1 & E2 & N1).
        exists (s ++ t1), t2. split; [now rewrite E1, app_assoc|]. rewrite app_assoc. auto.
  Qed.

  Lemma short_pieces : forall l p w, (List.length p + List.length (List.concat l) <= bufSize)%nat ->
    writePieces _ _ Write (mkBufio _ _ p None w) l = (mkBufio _ _ (p ++ List.concat l) None w, None).
  Proof.
    induction l as [|s l IH]; intros p w H; cbn [writePieces List.concat] in *; [now rewrite app_nil_r|]. rewrite app_length in H.
    change (2 + List.length s)%nat with (S (S (List.length s))). cbn [WriteString bufErr buffered].
    destruct (bufSize - List.length p <? List.length s)%nat eqn:K; [apply Nat.ltb_lt in K; lia|]. cbn [bufErr under].
    rewrite IH by (rewrite app_length; lia). now rewrite app_assoc.
  Qed.
End WriterProofs.

(** * Lines *)
Lemma splitAfter_cons : forall s line, exists x r, splitAfter line s = x :: r.
Proof. induction s as [|c s IH]; intro line; cbn [splitAfter]; [eauto|]. destruct (c =? 10); [eauto|apply IH]. Qed.
Lemma addEnd_cons : forall x l, l <> [] -> addEnd (x :: l) = x :: addEnd l.
Proof. intros x [|y l] H; [contradiction|reflexivity]. Qed.
Lemma splitLines_concat : forall s line, List.concat (addEnd (splitAfter line s)) = line ++ s ++ [10].
Proof.
  induction s as [|c s IH]; intro line; cbn [splitAfter].
  - cbn. now rewrite app_nil_r.
  - destruct (c =? 10) eqn:E.
    + destruct (splitAfter_cons s []) as (x & r & K). rewrite addEnd_cons by (rewrite K; discriminate). cbn [List.concat]. rewrite IH.
      apply Z.eqb_eq in E. subst c. rewrite <- app_assoc. reflexivity.
    + rewrite IH, <- app_assoc. reflexivity.
Qed.
Lemma splitLines_ended : forall s line, ~ In 10 line -> Forall ended (addEnd (splitAfter line s)).
Proof.
  induction s as [|c s IH]; intros line N; cbn [splitAfter].
  - constructor; [exists line; auto|constructor].
  - destruct (c =? 10) eqn:E.
    + destruct (splitAfter_cons s []) as (x & r & K). rewrite addEnd_cons by (rewrite K; discriminate).
      constructor; [exists line; auto|]. apply IH. intros [].
    + apply IH. intro I. apply in_app_iff in I. destruct I as [I|[I|[]]]; [contradiction|lia].
Qed.
(** A text has one list of ended lines *)
Lemma ended_unique : forall l l', Forall ended l -> Forall ended l' -> List.concat l = List.concat l' -> l = l'.
Proof.
  assert (P : forall t t' r r', ~ In 10 t -> ~ In 10 t' -> t ++ 10 :: r = t' ++ 10 :: r' -> t = t' /\ r = r').
  { induction t as [|c t IH]; intros [|c' t'] r r' N N' E; cbn [app] in E.
    - injection E as E. auto.
    - injection E as E1 E2. exfalso. apply N'. left. now rewrite E1.
    - injection E as E1 E2. exfalso. apply N. left. now rewrite E1.
    - injection E as E1 E2. destruct (IH t' r r') as [-> ->]; try assumption; [| |subst; auto]; intro I; [apply N|apply N']; now right. }
  induction l as [|x l IH]; intros [|x' l'] F F' E; cbn [List.concat] in E.
  - reflexivity.
  - inversion F' as [|? ? (t & K & N) F2]. subst. destruct t; discriminate E.
  - inversion F as [|? ? (t & K & N) F2]. subst. destruct t; discriminate E.
  - inversion F as [|? ? (t & K & N) F2]. inversion F' as [|? ? (t' & K' & N') F2']. subst.
    rewrite <- !app_assoc in E. cbn [app] in E. destruct (P _ _ _ _ N N' E) as [-> E']. f_equal. now apply IH.
Qed.
