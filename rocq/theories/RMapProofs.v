From Verif Require Import Base RMapModel RMapSpec.
From Coq Require Import Sorting.Permutation.
Open Scope list_scope.

Section Proofs.
  Variable K V : Type.
  Variable keq : K -> K -> bool.
  Variable hb : option (K -> bool).
  Variable zeroV : V.
  Variable keyUpdate : bool.
  Variable evacuated : V -> V.
  Hypothesis KEQ : key_equality keq.
  Notation heap := (mheap K V).
  Notation heap_ok := (heap_ok keq).
  Notation findSlot := (findSlot K keq).
  Notation relocate := (relocate K V evacuated).
  Notation slotFor := (slotFor K V keq zeroV keyUpdate evacuated).
  Notation mapassign := (mapassign K V keq hb zeroV keyUpdate evacuated).
  Notation mapdelete := (mapdelete K V keq hb evacuated).

  Lemma hashes_can : forall k, can_hash hb k <-> hashes K hb (Some k) = true.
  Proof. intros k. unfold can_hash, hashes. destruct hb; [reflexivity|split; intros _; [reflexivity|exact Logic.I]]. Qed.
  Lemma hashes_cannot : forall k, ~ can_hash hb k -> hashes K hb (Some k) = false.
  Proof. intros k N. destruct (hashes K hb (Some k)) eqn:E; [|reflexivity]. exfalso. apply N. now apply hashes_can. Qed.

  Lemma keq_sym : forall a b, keq a b = keq b a.
  Proof. apply KEQ. Qed.
  Lemma keq_same : forall a b c, keq a b = true -> keq c a = keq c b.
  Proof.
    intros a b c E. destruct KEQ as [S' T]. destruct (keq c b) eqn:B.
    - apply (T c b a); [exact B|]. now rewrite S'.
    - destruct (keq c a) eqn:A; [|reflexivity]. rewrite (T c a b A E) in B. discriminate.
  Qed.

  Definition pv (h : heap) (l : list (K * nat)) : list (K * V) := map (fun x => (fst x, vars h (snd x))) l.
  Lemma pv_ext : forall h h' l, (forall s, In s (map snd l) -> vars h' s = vars h s) -> pv h' l = pv h l.
  Proof. intros h h' l H. unfold pv. apply map_ext_in. intros [k s] I. cbn. f_equal. apply H. now apply (in_map snd) in I. Qed.
  Lemma findSlot_value : forall h k l, option_map (vars h) (findSlot k l) = value_of keq (pv h l) k.
  Proof.
    intros h k l. unfold findSlot. induction l as [|[k' s] r IH]; [reflexivity|]. cbn [find pv map value_of fst snd]. destruct (keq k k'); [reflexivity|]. exact IH.
  Qed.
  Lemma findSlot_in : forall k l s, findSlot k l = Some s -> In s (map snd l).
  Proof.
    intros k l s H. unfold findSlot in H. destruct (find _ l) as [[k' s']|] eqn:F; [|discriminate]. injection H as <-. apply find_some in F. destruct F as [F _]. now apply (in_map snd) in F.
  Qed.

  Lemma relocate_ok : forall moves l h h' l', relocate moves h l = (h', l') -> NoDup (map snd l) -> (forall s, In s (map snd l) -> (s < nxt h)%nat) ->
    map fst l' = map fst l /\ pv h' l' = pv h l /\ NoDup (map snd l') /\
    (forall s, In s (map snd l') -> In s (map snd l) \/ (nxt h <= s < nxt h')%nat) /\ (nxt h <= nxt h')%nat /\ hdrs h' = hdrs h /\ mvars h' = mvars h /\
    (forall x, (x < nxt h)%nat -> ~ In x (map snd l) -> vars h' x = vars h x).
  Proof.
    intros moves l. induction l as [|[k s] r IH]; intros h h' l' E ND B.
    - injection E as <- <-. split; [reflexivity|]. split; [reflexivity|]. split; [constructor|]. split; [contradiction|]. auto.
    - cbn [relocate] in E. cbn [map snd] in ND, B. apply NoDup_cons_iff in ND. destruct ND as [NI ND].
      pose proof (B s (or_introl eq_refl)) as BS.
      destruct (moves s).
      + unfold newVar in E. set (h1 := MH _ _ _ _) in E. set (h2 := writeVar h1 s _) in E.
        destruct (relocate moves h2 r) as [h3 r'] eqn:R. injection E as <- <-.
        assert (N2 : nxt h2 = S (nxt h)) by reflexivity.
        destruct (IH h2 h3 r' R ND) as (A1 & A2 & A3 & A4 & A5 & A6 & A7 & A8).
        { intros x I. rewrite N2. pose proof (B x (or_intror I)). lia. }
        assert (OLD : forall x, (x < nxt h)%nat -> x <> s -> vars h2 x = vars h x).
        { intros x L NE. cbn. rewrite (proj2 (Nat.eqb_neq x s) NE). now rewrite (proj2 (Nat.eqb_neq x (nxt h))) by lia. }
        assert (NEW : vars h3 (nxt h) = vars h s).
        { rewrite A8; [|lia|intros I; pose proof (B _ (or_intror I)); lia]. cbn. rewrite (proj2 (Nat.eqb_neq (nxt h) s)) by lia. now rewrite Nat.eqb_refl. }
        split; [cbn; now rewrite A1|]. split; [|split; [|split; [|split; [lia|split; [now rewrite A6|split; [now rewrite A7|]]]]]].
        * cbn [pv map fst snd]. fold (pv h3 r'). fold (pv h r). rewrite NEW, A2. f_equal. apply pv_ext. intros x I. apply OLD; [apply B; now right|].
          intros ->. contradiction.
        * cbn [map snd]. constructor; [|exact A3]. intros I. destruct (A4 _ I) as [I'|I']; [pose proof (B _ (or_intror I')); lia|lia].
        * intros x [<-|I]; cbn [snd]; [right; lia|]. destruct (A4 _ I) as [I'|I']; [left; now right|right; lia].
        * intros x L NI'. rewrite A8; [|lia|intros I; apply NI'; now right]. apply OLD; [exact L|]. intros ->. apply NI'. now left.
      + destruct (relocate moves h r) as [h3 r'] eqn:R. injection E as <- <-.
        destruct (IH h h3 r' R ND) as (A1 & A2 & A3 & A4 & A5 & A6 & A7 & A8); [intros x I; apply B; now right|].
        split; [cbn; now rewrite A1|]. split; [|split; [|split; [|split; [lia|split; [now rewrite A6|split; [now rewrite A7|]]]]]].
        * cbn [pv map fst snd]. fold (pv h3 r'). fold (pv h r). rewrite A2, A8; auto.
        * cbn [map snd]. constructor; [|exact A3]. intros I. destruct (A4 _ I) as [I'|I']; [contradiction|lia].
        * intros x [<-|I]; [left; now left|]. destruct (A4 _ I) as [I'|I']; [left; now right|right; exact I'].
        * intros x L NI'. apply A8; [exact L|]. intros I. apply NI'. now right.
  Qed.

  Lemma fop_keys : forall (l l' : list (K * nat)), map fst l' = map fst l -> ForallOrdPairs (fun x y => keq (fst x) (fst y) = false) l ->
    ForallOrdPairs (fun x y => keq (fst x) (fst y) = false) l'.
  Proof.
    induction l as [|x r IH]; intros [|y r'] E F; try discriminate; [constructor|]. cbn in E. injection E as E1 E2. inversion F as [|? ? H1 H2]; subst.
    constructor; [|now apply IH]. apply Forall_forall. intros z I. apply (in_map fst) in I. rewrite E2 in I. apply in_map_iff in I. destruct I as (w & W & I).
    rewrite Forall_forall in H1. rewrite E1, <- W. now apply H1.
  Qed.

  (** The element of a key that is there *)
  Definition upd (k : K) (x : K * nat) : K * nat := if keq k (fst x) && keyUpdate then (k, snd x) else x.
  Lemma upd_snd : forall k l, map snd (map (upd k) l) = map snd l.
  Proof. intros k l. rewrite map_map. apply map_ext. intros [k' s]. unfold upd. now destruct (_ && _). Qed.
  Lemma upd_fop : forall k l, ForallOrdPairs (fun x y => keq (fst x) (fst y) = false) l -> ForallOrdPairs (fun x y => keq (fst x) (fst y) = false) (map (upd k) l).
  Proof.
    assert (U : forall k x y, keq (fst x) (fst y) = false -> keq (fst (upd k x)) (fst (upd k y)) = false).
    { intros k x y H. unfold upd. destruct (keq k (fst x)) eqn:A, (keq k (fst y)) eqn:B, keyUpdate; cbn [andb fst]; auto.
      - rewrite (keq_sym k) in A. rewrite <- (keq_same _ _ (fst x) B) in H. congruence.
      - now rewrite keq_sym, A. }
    intros k l F. induction F as [|x r H F IH]; [constructor|]. cbn [map]. constructor; [|exact IH]. rewrite Forall_forall in *. intros z I.
    apply in_map_iff in I. destruct I as (y & <- & I). now apply U, H.
  Qed.
  Lemma set_existing : forall h k s v l, NoDup (map snd l) -> ForallOrdPairs (fun x y => keq (fst x) (fst y) = false) l -> findSlot k l = Some s ->
    forall k', value_of keq (pv (writeVar h s v) (map (upd k) l)) k' = if keq k' k then Some v else value_of keq (pv h l) k'.
  Proof.
    intros h k s v l. induction l as [|[k0 s0] r IH]; intros ND F E k'; [discriminate|]. cbn [map snd] in ND. apply NoDup_cons_iff in ND. destruct ND as [NI ND].
    inversion F as [|? ? H1 H2]; subst. rewrite Forall_forall in H1. unfold findSlot in E. cbn [find fst] in E. cbn [map pv]. fold (pv (writeVar h s v) (map (upd k) r)). fold (pv h r).
    destruct (keq k k0) eqn:A.
    - cbn in E. injection E as <-.
      assert (R : map (upd k) r = r).
      { rewrite <- (map_id r) at 2. apply map_ext_in. intros [k1 s1] I. unfold upd. cbn [fst]. destruct (keq k k1) eqn:B; [|reflexivity].
        exfalso. pose proof (H1 _ I) as H. cbn [fst] in H. rewrite (keq_sym k) in A. rewrite <- (keq_same _ _ k0 B) in H. congruence. }
      assert (P : pv (writeVar h s0 v) r = pv h r).
      { apply pv_ext. intros x I. cbn. destruct (Nat.eqb_spec x s0) as [->|]; [contradiction|reflexivity]. }
      rewrite R, P. cbn [value_of fst snd]. unfold upd. cbn [fst]. rewrite A. cbn [andb].
      replace (vars (writeVar h s0 v) (snd (if keyUpdate then (k, snd (k0, s0)) else (k0, s0)))) with v by (destruct keyUpdate; cbn; now rewrite Nat.eqb_refl).
      rewrite (keq_same _ _ k' A). destruct keyUpdate; cbn [fst]; [rewrite (keq_same _ _ k' A)|]; destruct (keq k' k0); reflexivity.
    - assert (IS : findSlot k r = Some s) by exact E. pose proof (findSlot_in _ _ _ IS) as I.
      assert (NE : s0 <> s) by (intros ->; contradiction). cbn [value_of fst snd]. unfold upd at 1 2. cbn [fst]. rewrite A. cbn [andb fst snd].
      rewrite (IH ND H2 IS k'). cbn [writeVar vars]. rewrite (proj2 (Nat.eqb_neq s0 s) NE). destruct (keq k' k0) eqn:B; [|reflexivity].
      destruct (keq k' k) eqn:C; [|reflexivity]. rewrite (keq_sym k') in C. rewrite <- (keq_same _ _ k B), C in A. discriminate.
  Qed.
  Lemma set_new : forall k (v : V) l, value_of keq l k = None -> forall k', value_of keq (l ++ [(k, v)]) k' = if keq k' k then Some v else value_of keq l k'.
  Proof.
    intros k v l. induction l as [|[k0 v0] r IH]; intros N k'; cbn [app value_of] in *; [reflexivity|]. destruct (keq k k0) eqn:A; [discriminate|].
    rewrite (IH N k'). destruct (keq k' k0) eqn:B; [|reflexivity]. destruct (keq k' k) eqn:C; [|reflexivity].
    rewrite (keq_sym k') in C. rewrite <- (keq_same _ _ k B), C in A. discriminate.
  Qed.
  Lemma delete_value : forall h k l k', value_of keq (pv h (filter (fun x => negb (keq k (fst x))) l)) k' = if keq k' k then None else value_of keq (pv h l) k'.
  Proof.
    intros h k l k'. induction l as [|[k0 s0] r IH]; [now destruct (keq k' k)|]. cbn [filter fst]. destruct (keq k k0) eqn:A; cbn [negb].
    - rewrite IH. cbn [pv map value_of fst snd]. rewrite (keq_same _ _ k' A). destruct (keq k' k0); reflexivity.
    - cbn [pv map value_of fst snd]. fold (pv h (filter (fun x => negb (keq k (fst x))) r)). fold (pv h r). rewrite IH.
      destruct (keq k' k0) eqn:B; [|reflexivity]. destruct (keq k' k) eqn:C; [|reflexivity].
      rewrite (keq_sym k') in C. rewrite <- (keq_same _ _ k B), C in A. discriminate.
  Qed.

  Lemma heap_put : forall (h h' : heap) b l l2, heap_ok h -> hdrs h b = Some l -> (forall x, hdrs h' x = if Nat.eqb x b then Some l2 else hdrs h x) ->
    (nxt h <= nxt h')%nat -> NoDup (map snd l2) -> ForallOrdPairs (fun x y => keq (fst x) (fst y) = false) l2 ->
    (forall s, In s (map snd l2) -> In s (map snd l) \/ (nxt h <= s < nxt h')%nat) -> heap_ok h'.
  Proof.
    intros h h' b l l2 (O1 & O2 & O3) E H N ND F S'.
    assert (SL : forall b' s, slots h' b' s -> slots h b' s \/ (b' = b /\ (nxt h <= s < nxt h')%nat)).
    { intros b' s (l' & HL & I). rewrite H in HL. destruct (Nat.eqb_spec b' b) as [->|NE].
      - injection HL as <-. destruct (S' s I) as [I'|I']; [left; now exists l|right; auto].
      - left. now exists l'. }
    split; [|split].
    - intros b' l' HL. rewrite H in HL. destruct (Nat.eqb_spec b' b) as [->|NE].
      + injection HL as <-. split; [exact ND|]. split; [exact F|]. destruct (O1 b l E) as (_ & _ & L). lia.
      + destruct (O1 b' l' HL) as (A & B & C). split; [exact A|]. split; [exact B|]. lia.
    - intros b' s I. destruct (SL b' s I) as [I'|[_ I']]; [pose proof (O2 b' s I'); lia|lia].
    - intros b1 b2 s I1 I2. destruct (SL b1 s I1) as [J1|[-> J1]], (SL b2 s I2) as [J2|[-> J2]]; auto.
      + eauto.
      + pose proof (O2 _ _ J1). lia.
      + pose proof (O2 _ _ J2). lia.
  Qed.

  Lemma others : forall (h h' : heap) b l l2, heap_ok h -> hdrs h b = Some l -> (forall x, hdrs h' x = if Nat.eqb x b then Some l2 else hdrs h x) ->
    mvars h' = mvars h -> (nxt h <= nxt h')%nat -> (forall x, (x < nxt h)%nat -> ~ In x (map snd l) -> vars h' x = vars h x) -> others_same h h' b.
  Proof.
    intros h h' b l l2 (O1 & O2 & O3) E H M N VS.
    assert (NS : forall x, ~ slots h b x -> ~ In x (map snd l)) by (intros x NI I; apply NI; now exists l).
    split; [exact M|]. split; [exact N|]. split.
    - intros b' NE. assert (HE : hdrs h' b' = hdrs h b') by (rewrite H; now rewrite (proj2 (Nat.eqb_neq b' b) NE)). split; [|exact HE].
      unfold contents. rewrite HE. destruct (hdrs h b') as [l'|] eqn:EB; [|reflexivity]. apply pv_ext. intros s I.
      assert (SB : slots h b' s) by now exists l'. apply VS; [eapply O2; eauto|]. intros I'. apply NE. apply (O3 b' b s SB). now exists l.
    - intros x L NI. apply VS; auto.
  Qed.

  Lemma assign_ok : forall moves h b k e, can_hash hb k -> heap_ok h -> hdrs h b <> None -> (e < nxt h)%nat -> ~ slots h b e ->
    exists h', mapassign moves h (Some b) (Some k) (Some e) = RDone h' tt /\ heap_ok h' /\ hdrs h' b <> None /\
      (forall k', value_of keq (contents h' b) k' = if keq k' k then Some (vars h e) else value_of keq (contents h b) k') /\ others_same h h' b.
  Proof.
    intros moves h b k e CH OK NN LE NS. apply hashes_can in CH. destruct (hdrs h b) as [l|] eqn:E; [|contradiction]. clear NN.
    destruct OK as (O1 & O2 & O3). destruct (O1 b l E) as (ND & F & LB).
    assert (BD : forall s, In s (map snd l) -> (s < nxt h)%nat) by (intros s I; apply (O2 b); now exists l).
    assert (NE : ~ In e (map snd l)) by (intros I; apply NS; now exists l).
    unfold RMapModel.mapassign, RMapModel.slotFor, pairsOf. rewrite CH, E. cbn [negb].
    destruct (relocate moves h l) as [h1 l1] eqn:R. destruct (relocate_ok _ _ _ _ _ R ND BD) as (A1 & A2 & A3 & A4 & A5 & A6 & A7 & A8).
    pose proof (fop_keys _ _ A1 F) as F1. assert (VE : vars h1 e = vars h e) by (apply A8; auto).
    assert (CE : contents h b = pv h1 l1) by (unfold contents; rewrite E; symmetry; exact A2).
    destruct (findSlot k l1) as [s|] eqn:FS.
    - pose proof (findSlot_in _ _ _ FS) as IS. eexists. split; [reflexivity|]. cbn [setHdr vars]. rewrite VE.
      set (h' := writeVar _ _ _).
      assert (HH : forall x, hdrs h' x = if Nat.eqb x b then Some (map (upd k) l1) else hdrs h x) by (intros x; cbn; rewrite A6; reflexivity).
      split; [|split; [|split]].
      + eapply (heap_put h h' b l); eauto; [split; auto|rewrite upd_snd; exact A3|now apply upd_fop|]. intros x I. rewrite upd_snd in I. cbn. auto.
      + rewrite HH, Nat.eqb_refl. discriminate.
      + intros k'. rewrite CE. unfold contents. rewrite HH, Nat.eqb_refl.
        change (value_of keq (pv (writeVar h1 s (vars h e)) (map (upd k) l1)) k' = if keq k' k then Some (vars h e) else value_of keq (pv h1 l1) k').
        now apply set_existing.
      + eapply (others h h' b l (map (upd k) l1)); eauto; [split; auto|]. intros x L NI. cbn. destruct (Nat.eqb_spec x s) as [->|]; [|now apply A8].
        destruct (A4 _ IS) as [I'|I']; [contradiction|lia].
    - cbn [newVar]. eexists. split; [reflexivity|]. cbn [setHdr vars]. rewrite (proj2 (Nat.eqb_neq e (nxt h1))) by lia. rewrite VE.
      set (h' := writeVar _ _ _). set (l2 := l1 ++ [(k, nxt h1)]).
      assert (HH : forall x, hdrs h' x = if Nat.eqb x b then Some l2 else hdrs h x) by (intros x; cbn; rewrite A6; reflexivity).
      assert (B1 : forall s, In s (map snd l1) -> (s < nxt h1)%nat) by (intros s I; destruct (A4 _ I) as [I'|I']; [apply BD in I'; lia|lia]).
      assert (NV : value_of keq (pv h1 l1) k = None) by (rewrite <- findSlot_value; unfold findSlot in *; now rewrite FS).
      assert (PVE : pv h' l2 = pv h1 l1 ++ [(k, vars h e)]).
      { unfold l2, pv. rewrite map_app. cbn [map fst snd]. f_equal.
        - apply pv_ext. intros s I. cbn. apply B1 in I. rewrite (proj2 (Nat.eqb_neq s (nxt h1))) by lia. reflexivity.
        - cbn. now rewrite Nat.eqb_refl. }
      split; [|split; [|split]].
      + eapply (heap_put h h' b l l2); eauto; [split; auto|cbn; lia| | |].
        * unfold l2. rewrite map_app. cbn [map snd]. apply (Permutation_NoDup (Permutation_cons_append (map snd l1) (nxt h1))). constructor; [|exact A3].
          intros I. apply B1 in I. lia.
        * unfold l2. clear -F1 NV KEQ. induction F1 as [|x r H F IH]; [cbn; constructor; constructor|]. cbn [app]. destruct x as [k0 s0].
          cbn [pv map value_of fst snd] in NV. destruct (keq k k0) eqn:A; [discriminate|]. constructor; [|now apply IH].
          apply Forall_app. split; [exact H|]. constructor; [|constructor]. cbn [fst]. now rewrite keq_sym.
        * intros s I. unfold l2 in I. rewrite map_app in I. apply in_app_iff in I. destruct I as [I|[<-|[]]]; cbn; [destruct (A4 _ I); [now left|right; lia]|right; lia].
      + rewrite HH, Nat.eqb_refl. discriminate.
      + intros k'. rewrite CE. unfold contents. rewrite HH, Nat.eqb_refl. change (value_of keq (pv h' l2) k' = if keq k' k then Some (vars h e) else value_of keq (pv h1 l1) k').
        rewrite PVE. now apply set_new.
      + eapply (others h h' b l l2); eauto; [split; auto|cbn; lia|]. intros x L NI. cbn. rewrite (proj2 (Nat.eqb_neq x (nxt h1))) by lia. now apply A8.
  Qed.

  Lemma delete_ok : forall moves h b k, can_hash hb k -> heap_ok h -> hdrs h b <> None ->
    exists h', mapdelete moves h (Some b) k = RDone h' tt /\ heap_ok h' /\ hdrs h' b <> None /\
      (forall k', value_of keq (contents h' b) k' = if keq k' k then None else value_of keq (contents h b) k') /\ others_same h h' b.
  Proof.
    intros moves h b k CH OK NN. apply hashes_can in CH. destruct (hdrs h b) as [l|] eqn:E; [|contradiction]. clear NN.
    destruct OK as (O1 & O2 & O3). destruct (O1 b l E) as (ND & F & LB).
    assert (BD : forall s, In s (map snd l) -> (s < nxt h)%nat) by (intros s I; apply (O2 b); now exists l).
    unfold RMapModel.mapdelete, pairsOf. rewrite CH, E. cbn [negb].
    destruct (relocate moves h l) as [h1 l1] eqn:R. destruct (relocate_ok _ _ _ _ _ R ND BD) as (A1 & A2 & A3 & A4 & A5 & A6 & A7 & A8).
    pose proof (fop_keys _ _ A1 F) as F1. eexists. split; [reflexivity|]. set (h' := setHdr _ _ _). set (l2 := filter _ l1) in h'.
    assert (CE : contents h b = pv h1 l1) by (unfold contents; rewrite E; symmetry; exact A2).
    assert (HH : forall x, hdrs h' x = if Nat.eqb x b then Some l2 else hdrs h x) by (intros x; cbn; rewrite A6; reflexivity).
    assert (SUB : forall s, In s (map snd l2) -> In s (map snd l1)).
    { intros s I. apply in_map_iff in I. destruct I as (x & <- & I). apply filter_In in I. apply in_map, I. }
    split; [|split; [|split]].
    - eapply (heap_put h h' b l l2); eauto; [split; auto| |].
      + unfold l2. clear -A3. induction l1 as [|x r IH]; [constructor|]. cbn [map] in A3. apply NoDup_cons_iff in A3. destruct A3 as [NI ND]. cbn [filter].
        destruct (negb _); [|now apply IH]. cbn [map]. constructor; [|now apply IH]. intros I. apply NI. apply in_map_iff in I. destruct I as (y & <- & I).
        apply filter_In in I. apply in_map, I.
      + unfold l2. clear -F1. induction F1 as [|x r H F IH]; [constructor|]. cbn [filter]. destruct (negb _); [|exact IH]. constructor; [|exact IH].
        rewrite Forall_forall in *. intros y I. apply filter_In in I. apply H, I.
    - rewrite HH, Nat.eqb_refl. discriminate.
    - intros k'. rewrite CE. unfold contents. rewrite HH, Nat.eqb_refl. apply (delete_value h1 k l1 k').
    - eapply (others h h' b l l2); eauto. split; auto.
  Qed.

  (** A new variable changes nothing that existed *)
  Lemma new_same : forall (h : heap) v h' n, newVar h v = (h', n) -> same h h' /\ n = nxt h /\ vars h' n = v.
  Proof.
    intros h v h' n E. injection E as <- <-. split; [split; [reflexivity|split; [reflexivity|split; [cbn; lia|]]]|split; [reflexivity|cbn; now rewrite Nat.eqb_refl]].
    intros x L. cbn. now rewrite (proj2 (Nat.eqb_neq x (nxt h))) by lia.
  Qed.
  Lemma same_ok : forall h h' : heap, heap_ok h -> same h h' -> heap_ok h' /\ forall b, contents h' b = contents h b.
  Proof.
    intros h h' (O1 & O2 & O3) (M & H & N & VS).
    assert (SL : forall b s, slots h' b s <-> slots h b s) by (intros b s; unfold slots; now rewrite H).
    split; [split; [|split]|].
    - intros b l E. rewrite H in E. destruct (O1 b l E) as (A & B & C). split; [exact A|]. split; [exact B|]. lia.
    - intros b s I. apply SL in I. pose proof (O2 b s I). lia.
    - intros b b' s I I'. apply SL in I. apply SL in I'. eauto.
    - intros b. unfold contents. rewrite H. destruct (hdrs h b) as [l|] eqn:E; [|reflexivity]. apply pv_ext. intros s I. apply VS. apply (O2 b). now exists l.
  Qed.

  (** The slot of a key that is not there yet gets a zero element *)
  Lemma slot_new : forall moves h b k, heap_ok h -> hdrs h b <> None -> value_of keq (contents h b) k = None ->
    forall k', value_of keq (contents (fst (slotFor moves h b k)) b) k' = if keq k' k then Some zeroV else value_of keq (contents h b) k'.
  Proof.
    intros moves h b k (O1 & O2 & O3) NN NV k'. destruct (hdrs h b) as [l|] eqn:E; [|contradiction]. clear NN. destruct (O1 b l E) as (ND & F & LB).
    assert (BD : forall s, In s (map snd l) -> (s < nxt h)%nat) by (intros s I; apply (O2 b); now exists l).
    unfold RMapModel.slotFor, pairsOf. rewrite E.
    destruct (relocate moves h l) as [h1 l1] eqn:R. destruct (relocate_ok _ _ _ _ _ R ND BD) as (A1 & A2 & A3 & A4 & A5 & A6 & A7 & A8).
    assert (CE : contents h b = pv h1 l1) by (unfold contents; rewrite E; symmetry; exact A2).
    rewrite CE in *. destruct (findSlot k l1) as [s|] eqn:FS; [rewrite <- findSlot_value in NV; unfold findSlot in *; rewrite FS in NV; discriminate|].
    cbn [newVar fst]. unfold contents. cbn [setHdr hdrs]. rewrite Nat.eqb_refl.
    set (h' := setHdr _ _ _). change (value_of keq (pv h' (l1 ++ [(k, nxt h1)])) k' = if keq k' k then Some zeroV else value_of keq (pv h1 l1) k').
    replace (pv h' (l1 ++ [(k, nxt h1)])) with (pv h1 l1 ++ [(k, zeroV)]); [now apply set_new|].
    unfold pv at 2. rewrite map_app. cbn [map fst snd]. f_equal; [|cbn; now rewrite Nat.eqb_refl]. symmetry. apply (pv_ext h1 h'). intros s I. cbn.
    destruct (A4 _ I) as [I'|I']; [apply BD in I'|]; rewrite (proj2 (Nat.eqb_neq s (nxt h1))) by lia; reflexivity.
  Qed.

  Lemma relocate_moved : forall moves l h h' l' s, relocate moves h l = (h', l') -> (forall s, In s (map snd l) -> (s < nxt h)%nat) -> (s < nxt h)%nat ->
    (In s (map snd l') <-> In s (map snd l) /\ moves s = false).
  Proof.
    intros moves l. induction l as [|[k s0] r IH]; intros h h' l' s E B L; cbn [relocate] in E.
    - injection E as <- <-. cbn. tauto.
    - cbn [map snd] in B. destruct (moves s0) eqn:M.
      + unfold newVar in E. set (h1 := MH _ _ _ _) in E. set (h2 := writeVar h1 s0 _) in E.
        destruct (relocate moves h2 r) as [h3 r'] eqn:R. injection E as <- <-. cbn [map snd].
        assert (H2 : In s (map snd r') <-> In s (map snd r) /\ moves s = false).
        { apply (IH h2 h3 r' s R); [|cbn; lia]. intros x I. cbn. pose proof (B x (or_intror I)). lia. }
        split.
        * intros [<-|I]; [lia|]. apply H2 in I. split; [now right|apply I].
        * intros [[<-|I] MS]; [congruence|]. right. apply H2. auto.
      + destruct (relocate moves h r) as [h3 r'] eqn:R. injection E as <- <-. cbn [map snd].
        assert (H2 : In s (map snd r') <-> In s (map snd r) /\ moves s = false) by (apply (IH h h3 r' s R); [intros x I; apply B; now right|exact L]).
        split.
        * intros [<-|I]; [split; [now left|assumption]|]. apply H2 in I. split; [now right|apply I].
        * intros [[<-|I] MS]; [now left|]. right. apply H2. auto.
  Qed.
  (** A slot is used by the map after an assignment exactly if it was not moved *)
  Lemma assign_slots : forall moves (h : heap) b k e h' x, heap_ok h -> slots h b x -> mapassign moves h (Some b) (Some k) (Some e) = RDone h' tt ->
    (slots h' b x <-> moves x = false).
  Proof.
    intros moves h b k e h' x (O1 & O2 & O3) SX H. destruct SX as (l & E & I). pose proof (O2 b x (ex_intro _ l (conj E I))) as LX.
    assert (BD : forall s, In s (map snd l) -> (s < nxt h)%nat) by (intros s J; apply (O2 b); now exists l).
    unfold RMapModel.mapassign, RMapModel.slotFor, pairsOf in H. rewrite E in H. destruct (negb (hashes K hb (Some k))); [discriminate|].
    destruct (relocate moves h l) as [h1 l1] eqn:R. pose proof (relocate_moved _ _ _ _ _ x R BD LX) as RM.
    destruct (O1 b l E) as (ND & _ & _). destruct (relocate_ok _ _ _ _ _ R ND BD) as (_ & _ & _ & _ & A5 & _ & _ & _).
    unfold slots. destruct (findSlot k l1) as [s|].
    - injection H as <-. cbn [writeVar setHdr hdrs]. rewrite Nat.eqb_refl. split.
      + intros (l2 & EQ & J). injection EQ as <-. change (In x (map snd (map (upd k) l1))) in J. rewrite upd_snd in J. now apply RM.
      + intros M. eexists. split; [reflexivity|]. change (In x (map snd (map (upd k) l1))). rewrite upd_snd. now apply RM.
    - cbn [newVar] in H. injection H as <-. cbn [writeVar setHdr hdrs]. rewrite Nat.eqb_refl. split.
      + intros (l2 & EQ & J). injection EQ as <-. rewrite map_app in J. apply in_app_iff in J. destruct J as [J|[J|[]]]; [now apply RM|cbn in J; lia].
      + intros M. eexists. split; [reflexivity|]. rewrite map_app. apply in_app_iff. left. now apply RM.
  Qed.
  (** Assigning puts nothing into a map that cannot be hashed *)
  Lemma assign_keys : forall moves (h : heap) b k e h', keys_hash hb h -> hdrs h b <> None -> mapassign moves h (Some b) (Some k) (Some e) = RDone h' tt -> keys_hash hb h'.
  Proof.
    intros moves h b k e h' KH NN H. destruct (hdrs h b) as [l|] eqn:E; [|contradiction]. clear NN.
    unfold RMapModel.mapassign, RMapModel.slotFor, pairsOf in H. rewrite E in H. destruct (hashes K hb (Some k)) eqn:CH; [|discriminate]. cbn [negb] in H. apply hashes_can in CH.
    assert (RK : forall m h1 l1 h2, relocate moves h2 m = (h1, l1) -> hdrs h1 = hdrs h2 /\ forall x, In x (map fst l1) -> In x (map fst m)).
    { clear. induction m as [|[k0 s0] r IH]; intros h1 l1 h2 R; cbn [relocate] in R; [injection R as <- <-; split; [reflexivity|auto]|]. destruct (moves s0).
      - unfold newVar in R. set (g := writeVar _ _ _) in R. destruct (relocate moves g r) as [h3 r'] eqn:R'. injection R as <- <-. destruct (IH _ _ _ R') as [A B].
        split; [rewrite A; reflexivity|]. intros x [X|X]; [now left|right; now apply B].
      - destruct (relocate moves h2 r) as [h3 r'] eqn:R'. injection R as <- <-. destruct (IH _ _ _ R') as [A B].
        split; [exact A|]. intros x [X|X]; [now left|right; now apply B]. }
    destruct (relocate moves h l) as [h1 l1] eqn:R. destruct (RK _ _ _ _ R) as [HE SUB].
    assert (K1 : forall k0 s0, In (k0, s0) l1 -> can_hash hb k0).
    { intros k0 s0 I. apply (in_map fst) in I. apply SUB in I. apply in_map_iff in I. destruct I as ([k1 s1] & X & I). cbn in X. subst k1. eapply KH; eauto. }
    intros b' l' k0 s0 EL I. destruct (findSlot k l1) as [s|].
    - injection H as <-. cbn [writeVar setHdr hdrs] in EL. destruct (Nat.eqb b' b).
      + injection EL as <-. apply in_map_iff in I. destruct I as ([k1 s1] & X & I). destruct (keq k (fst (k1, s1)) && keyUpdate).
        * injection X as <- _. exact CH.
        * injection X as -> ->. eauto.
      + rewrite HE in EL. eapply KH; eauto.
    - cbn [newVar] in H. injection H as <-. cbn [writeVar setHdr hdrs] in EL. destruct (Nat.eqb b' b).
      + injection EL as <-. apply in_app_iff in I. destruct I as [I|[I|[]]]; [eauto|]. injection I as <- _. exact CH.
      + rewrite HE in EL. eapply KH; eauto.
  Qed.
  Lemma write_slot : forall (h : heap) b k x v, heap_ok h -> hdrs h b <> None -> findSlot k (pairsOf h b) = Some x ->
    forall k', value_of keq (contents (writeVar h x v) b) k' = if keq k' k then Some v else value_of keq (contents h b) k'.
  Proof.
    intros h b k x v (O1 & O2 & O3) NN FS k'. unfold pairsOf in FS. unfold contents. cbn [writeVar hdrs]. destruct (hdrs h b) as [l|] eqn:E; [|contradiction].
    destruct (O1 b l E) as (ND & F & _). clear -KEQ ND F FS.
    change (value_of keq (pv (writeVar h x v) l) k' = if keq k' k then Some v else value_of keq (pv h l) k').
    induction l as [|[k0 s0] r IH]; [discriminate|]. cbn [map snd] in ND. apply NoDup_cons_iff in ND. destruct ND as [NI ND].
    inversion F as [|? ? H1 H2]; subst. unfold findSlot in FS. cbn [find fst] in FS. cbn [map pv value_of fst snd]. fold (pv (writeVar h x v) r). fold (pv h r).
    destruct (keq k k0) eqn:A.
    - cbn in FS. injection FS as <-. cbn [writeVar vars]. rewrite Nat.eqb_refl. rewrite (keq_same _ _ k' A). destruct (keq k' k0); [reflexivity|].
      f_equal. apply pv_ext. intros s I. cbn. destruct (Nat.eqb_spec s s0) as [->|]; [contradiction|reflexivity].
    - assert (IS : findSlot k r = Some x) by exact FS. pose proof (findSlot_in _ _ _ IS) as I.
      assert (NE : s0 <> x) by (intros ->; contradiction). cbn [writeVar vars]. rewrite (proj2 (Nat.eqb_neq s0 x) NE).
      change {| vars := _; hdrs := _; mvars := _; nxt := _ |} with (writeVar h x v). rewrite (IH IS ND H2). destruct (keq k' k0) eqn:B; [|reflexivity].
      destruct (keq k' k) eqn:C; [|reflexivity]. rewrite (keq_sym k') in C. rewrite <- (keq_same _ _ k B), C in A. discriminate.
  Qed.
  Lemma write_other : forall (h : heap) b x v, ~ slots h b x -> contents (writeVar h x v) b = contents h b.
  Proof.
    intros h b x v NS. unfold contents. cbn [writeVar hdrs]. destruct (hdrs h b) as [l|] eqn:E; [|reflexivity]. apply (pv_ext h (writeVar h x v)). intros s I. cbn.
    destruct (Nat.eqb_spec s x) as [->|]; [|reflexivity]. exfalso. apply NS. now exists l.
  Qed.
End Proofs.
