(** Proofs about countlog/stats. *)
From Verif Require Import Base MsgfmtModel StatsModel StatsSpec.
Open Scope Z_scope.
Open Scope list_scope.

Lemma key_eqb_eq : forall a b, key_eqb a b = true <-> a = b.
Proof. intros a b. unfold key_eqb. destruct (list_eq_dec (list_eq_dec Z.eq_dec) a b); split; congruence. Qed.
Lemma key_eqb_refl : forall a, key_eqb a a = true.
Proof. intros. now apply key_eqb_eq. Qed.
Lemma beqb_eq : forall a b, bytes_eqb a b = true <-> a = b.
Proof. intros a b. unfold bytes_eqb. destruct (list_eq_dec Z.eq_dec a b); split; congruence. Qed.

Lemma upd_same : forall A (f : nat -> A) i x, upd f i x i = x.
Proof. intros. unfold upd. now rewrite Nat.eqb_refl. Qed.
Lemma upd_other : forall A (f : nat -> A) i j x, j <> i -> upd f i x j = f j.
Proof. intros A f i j x H. unfold upd. apply Nat.eqb_neq in H. now rewrite H. Qed.

(** * float64 *)
Lemma float64_exact : forall n, 0 <= n <= 2 ^ 53 -> float64 n = n.
Proof.
  intros n H. unfold float64. destruct (Z.eq_dec n (2 ^ 53)) as [->|N]; [reflexivity|].
  assert (Q : Z.log2 n <= 52).
  { destruct (Z.eq_dec n 0) as [->|Z]; [cbn; lia|]. assert (Z.log2 n < 53) by (apply Z.log2_lt_pow2; lia). lia. }
  rewrite Z.max_l by lia. reflexivity.
Qed.

(** * Maps *)
Lemma held_increment_same : forall m d, 0 <= held m d < 2 ^ 53 -> held (increment m d) d = held m d + 1.
Proof.
  induction m as [|[k c] m IH]; intros d H; unfold held in *; cbn [increment get] in *.
  - rewrite key_eqb_refl. unfold uint64. rewrite Z.mod_small; lia.
  - destruct (key_eqb k d) eqn:E; cbn [get]; rewrite E.
    + unfold uint64. rewrite Z.mod_small; lia.
    + now apply IH.
Qed.
Lemma held_increment_other : forall m d d', d <> d' -> held (increment m d) d' = held m d'.
Proof.
  induction m as [|[k c] m IH]; intros d d' H; unfold held in *; cbn [increment get] in *.
  - destruct (key_eqb d d') eqn:E; [apply key_eqb_eq in E; congruence|reflexivity].
  - destruct (key_eqb k d) eqn:E; cbn [get].
    + apply key_eqb_eq in E. subst k. destruct (key_eqb d d') eqn:E; [apply key_eqb_eq in E; congruence|reflexivity].
    + destruct (key_eqb k d'); [reflexivity|]. now apply IH.
Qed.
Lemma held_set_same : forall m d c, get m d = Some c -> held (set_entry m d 0) d = 0.
Proof.
  induction m as [|[k c] m IH]; intros d c' H; unfold held in *; cbn [set_entry get] in *; [discriminate H|].
  destruct (key_eqb k d) eqn:E; cbn [get]; rewrite E; [reflexivity|]. eapply IH; eauto.
Qed.
Lemma held_set_other : forall m d d', d <> d' -> held (set_entry m d 0) d' = held m d'.
Proof.
  induction m as [|[k c] m IH]; intros d d' H; unfold held in *; cbn [set_entry get] in *; [reflexivity|].
  destruct (key_eqb k d) eqn:E; cbn [get].
  - apply key_eqb_eq in E. subst k. destruct (key_eqb d d') eqn:E; [apply key_eqb_eq in E; congruence|reflexivity].
  - destruct (key_eqb k d'); [reflexivity|]. now apply IH.
Qed.
Lemma keys_set : forall m d v, map fst (set_entry m d v) = map fst m.
Proof.
  induction m as [|[k c] m IH]; intros d v; cbn [set_entry map fst]; [reflexivity|].
  destruct (key_eqb k d); cbn [map fst]; [reflexivity|]. now rewrite IH.
Qed.
Lemma keys_increment : forall m d k, In k (map fst m) -> In k (map fst (increment m d)).
Proof.
  induction m as [|[k' c] m IH]; intros d k H; [destruct H|]. cbn [increment]. destruct (key_eqb k' d); [exact H|].
  destruct H as [H|H]; [left; exact H|right; auto].
Qed.
Lemma get_in : forall m d, In d (map fst m) -> exists c, get m d = Some c.
Proof.
  induction m as [|[k c] m IH]; intros d H; [destruct H|]. cbn [get]. destruct (key_eqb k d) eqn:E; [eauto|].
  destruct H as [H|H]; [cbn in H; subst; rewrite key_eqb_refl in E; discriminate E|auto].
Qed.
Lemma get_some_in : forall m d c, get m d = Some c -> In d (map fst m).
Proof.
  induction m as [|[k c] m IH]; intros d c' H; [discriminate H|]. cbn [get] in H. destruct (key_eqb k d) eqn:E.
  - left. now apply key_eqb_eq.
  - right. eapply IH; eauto.
Qed.
Lemma remove_key_in : forall l d k, In k l -> k <> d -> In k (remove_key l d).
Proof.
  induction l as [|x l IH]; intros d k H N; [destruct H|]. cbn [remove_key]. destruct (key_eqb x d) eqn:E.
  - apply key_eqb_eq in E. destruct H; [congruence|auto].
  - destruct H; [left; auto|right; auto].
Qed.
Lemma remove_key_incl : forall l d k, In k (remove_key l d) -> In k l.
Proof.
  induction l as [|x l IH]; intros d k H; [destruct H|]. cbn [remove_key] in H. destruct (key_eqb x d).
  - right; auto.
  - destruct H; [left; auto|right; eauto].
Qed.
Lemma remove_key_length : forall l d, In d l -> List.length l = S (List.length (remove_key l d)).
Proof.
  induction l as [|x l IH]; intros d H; [destruct H|]. cbn [remove_key]. destruct (key_eqb x d) eqn:E; [reflexivity|].
  destruct H as [H|H]; [subst; rewrite key_eqb_refl in E; discriminate E|]. cbn [List.length]. f_equal. auto.
Qed.

(** * Sums *)
Lemma sum_upd : forall (f : nat -> Z) i v n a, (a <= i < a + n)%nat ->
  fold_right Z.add 0 (map (fun j => if (j =? i)%nat then v else f j) (seq a n)) = fold_right Z.add 0 (map f (seq a n)) - f i + v.
Proof.
  intros f i v. induction n as [|n IH]; intros a H; [lia|]. cbn [seq map fold_right].
  destruct (Nat.eq_dec a i) as [->|N].
  - rewrite Nat.eqb_refl.
    assert (E : forall b m, (i < b)%nat -> map (fun j => if (j =? i)%nat then v else f j) (seq b m) = map f (seq b m)).
    { intros b m L. apply map_ext_in. intros x Q. apply in_seq in Q. destruct (Nat.eqb_spec x i); [lia|reflexivity]. }
    rewrite E by lia. lia.
  - destruct (Nat.eqb_spec a i); [lia|]. rewrite IH by lia. lia.
Qed.
Lemma in_memory_upd : forall s s' i m d, (i < 16)%nat -> shards s' = upd (shards s) i m ->
  in_memory s' d = in_memory s d - held (shards s i) d + held m d.
Proof.
  intros s s' i m d H E. unfold in_memory. rewrite E.
  rewrite <- (sum_upd (fun j => held (shards s j) d)) by lia. f_equal. apply map_ext. intros j. unfold upd.
  destruct (Nat.eqb_spec j i); [subst|]; reflexivity.
Qed.
Lemma sum_nonneg : forall l, (forall x, In x l -> 0 <= x) -> 0 <= fold_right Z.add 0 l.
Proof. induction l as [|x l IH]; intros H; cbn; [lia|]. assert (0 <= x) by (apply H; now left). assert (0 <= fold_right Z.add 0 l) by (apply IH; intros; apply H; now right). lia. Qed.
Lemma sum_bound : forall l x, (forall x, In x l -> 0 <= x) -> In x l -> x <= fold_right Z.add 0 l.
Proof.
  induction l as [|y l IH]; intros x H Q; [destruct Q|]. cbn. assert (0 <= y) by (apply H; now left).
  assert (0 <= fold_right Z.add 0 l) by (apply sum_nonneg; intros; apply H; now right).
  destruct Q as [->|Q]; [lia|]. assert (x <= fold_right Z.add 0 l) by (apply IH; auto; intros; apply H; now right). lia.
Qed.

Section Run.
  Variable indices : list nat.
  Notation step := (step indices).
  Notation run := (run indices).

  Lemma run_app : forall a b s, run s (a ++ b) = match run s a with Some s' => run s' b | None => None end.
  Proof. induction a as [|e a IH]; intros b s; cbn; [reflexivity|]. destruct (step s e); auto. Qed.
  Lemma run_snoc : forall a e s s', run s (a ++ [e]) = Some s' -> exists m, run s a = Some m /\ step m e = Some s'.
  Proof.
    intros a e s s' H. rewrite run_app in H. destruct (run s a) as [m|] eqn:E; [|discriminate H]. exists m. split; auto.
    cbn in H. destruct (step m e); [exact H|discriminate H].
  Qed.

  (** ** Locks *)
  Definition hshard (p : hpc) : option nat :=
    match p with HLocked i _ => Some i | HCounted i => Some i | HPanicked i => Some i | _ => None end.
  Definition xshard (p : xpc) : option nat := match p with XIn i _ => Some i | _ => None end.
  Definition owns (s : window) (o : holder) : option nat :=
    match o with ByHandle h => hshard (hs s h) | ByExport x => xshard (xs s x) end.
  Record locked (s : window) : Prop := mkLocked {
    lk_own : forall i o, owns s o = Some i <-> locks s i = Some o;
    lk_16 : forall i o, locks s i = Some o -> (i < 16)%nat;
    lk_b : forall x i, xs s x = XBefore i -> (i < 16)%nat;
    lk_in : forall x i l, xs s x = XIn i l -> incl l (map fst (shards s i))
  }.

  Ltac cases R := repeat match type of R with
    | match ?x with _ => _ end = Some _ => destruct x eqn:?; try discriminate R
    | (if ?x then _ else _) = Some _ => destruct x eqn:?; try discriminate R
    end.

  (** The owner [o] keeps its shard, gets shard i, or gives it up. *)
  Lemma own_keep : forall s s' o, locks s' = locks s -> (forall o', o' <> o -> owns s' o' = owns s o') -> owns s' o = owns s o ->
    (forall i o, owns s o = Some i <-> locks s i = Some o) -> forall i o, owns s' o = Some i <-> locks s' i = Some o.
  Proof.
    intros s s' o L E O H i o'. rewrite L, <- H.
    assert (D : o' = o \/ o' <> o).
    { destruct o' as [a|a], o as [b|b]; try (right; congruence); destruct (Nat.eq_dec a b); subst; auto; right; congruence. }
    destruct D as [->|N]; [now rewrite O|now rewrite E].
  Qed.
  Lemma own_take : forall s s' o i, locks s' = upd (locks s) i (Some o) -> locks s i = None -> (forall o', o' <> o -> owns s' o' = owns s o') ->
    owns s o = None -> owns s' o = Some i ->
    (forall i o, owns s o = Some i <-> locks s i = Some o) -> forall i o, owns s' o = Some i <-> locks s' i = Some o.
  Proof.
    intros s s' o i L N E O O' H j o'. rewrite L. unfold upd.
    assert (D : o' = o \/ o' <> o).
    { destruct o' as [a|a], o as [b|b]; try (right; congruence); destruct (Nat.eq_dec a b); subst; auto; right; congruence. }
    destruct D as [->|D].
    - rewrite O'. destruct (Nat.eqb_spec j i); [subst; tauto|]. rewrite <- H, O. split; congruence.
    - rewrite E by auto. rewrite H. destruct (Nat.eqb_spec j i); [subst; rewrite N; split; congruence|tauto].
  Qed.
  Lemma own_drop : forall s s' o i, locks s' = upd (locks s) i None -> (forall o', o' <> o -> owns s' o' = owns s o') ->
    owns s o = Some i -> owns s' o = None ->
    (forall i o, owns s o = Some i <-> locks s i = Some o) -> forall i o, owns s' o = Some i <-> locks s' i = Some o.
  Proof.
    intros s s' o i L E O O' H j o'. rewrite L. unfold upd. pose proof (proj1 (H _ _) O) as Q.
    assert (D : o' = o \/ o' <> o).
    { destruct o' as [a|a], o as [b|b]; try (right; congruence); destruct (Nat.eq_dec a b); subst; auto; right; congruence. }
    destruct D as [->|D].
    - rewrite O'. destruct (Nat.eqb_spec j i); [split; congruence|]. rewrite <- H, O. split; congruence.
    - rewrite E by auto. rewrite H. destruct (Nat.eqb_spec j i); [subst; rewrite Q; split; congruence|tauto].
  Qed.
  Lemma owns_hs : forall s s' h p, hs s' = upd (hs s) h p -> xs s' = xs s -> forall o, o <> ByHandle h -> owns s' o = owns s o.
  Proof.
    intros s s' h p E F o N. destruct o as [a|a]; cbn [owns]; [rewrite E; rewrite upd_other by congruence|rewrite F]; reflexivity.
  Qed.
  Lemma owns_xs : forall s s' h p, xs s' = upd (xs s) h p -> hs s' = hs s -> forall o, o <> ByExport h -> owns s' o = owns s o.
  Proof.
    intros s s' h p E F o N. destruct o as [a|a]; cbn [owns]; [rewrite F|rewrite E; rewrite upd_other by congruence]; reflexivity.
  Qed.
  Ltac oeq := cbn [owns hs xs]; rewrite ?upd_same; repeat match goal with E : hs _ _ = _ |- _ => rewrite E | E : xs _ _ = _ |- _ => rewrite E end; reflexivity.

  Lemma locked_init : locked newWindow.
  Proof. constructor; cbn; try discriminate. intros i [h|x]; cbn; split; discriminate. Qed.

  Lemma locked_step : forall s e s', locked s -> step s e = Some s' -> locked s'.
  Proof.
    intros s e s' [A B C D] R.
    destruct e as [h goid properties|h d|h|x|x|x p|x]; cbn [StatsModel.step] in R; cases R; injection R as <-.
    - constructor; [|cbn [shards locks hs xs]..].
      + eapply (own_take s _ (ByHandle h) (shardOf goid)); try reflexivity; auto; [eapply owns_hs; reflexivity|oeq|oeq].
      + intros i o. unfold upd. destruct (Nat.eqb_spec i (shardOf goid)); [intros _; subst; apply Nat.mod_upper_bound; lia|apply B].
      + auto.
      + auto.
    - constructor; [|cbn [shards locks hs xs]..].
      + eapply (own_keep s _ (ByHandle h)); try reflexivity; auto; [eapply owns_hs; reflexivity|oeq].
      + auto.
      + auto.
      + intros x i k Q y W. apply (D _ _ _ Q) in W. unfold upd. destruct (Nat.eqb_spec i shard); [subst; now apply keys_increment|exact W].
    - constructor; [|cbn [shards locks hs xs]..]; auto.
      eapply (own_keep s _ (ByHandle h)); try reflexivity; auto; [eapply owns_hs; reflexivity|oeq].
    - constructor; [|cbn [shards locks hs xs]..]; auto.
      + eapply (own_drop s _ (ByHandle h) shard); try reflexivity; auto; [eapply owns_hs; reflexivity|oeq|oeq].
      + intros i o. unfold upd. destruct (Nat.eqb_spec i shard); [discriminate|apply B].
    - constructor; [|cbn [shards locks hs xs]..]; auto.
      + eapply (own_keep s _ (ByExport x)); try reflexivity; auto; [eapply owns_xs; reflexivity|oeq].
      + intros y i. unfold upd. destruct (Nat.eqb_spec y x); [intros Q; injection Q as <-; lia|apply C].
      + intros y i l. unfold upd. destruct (Nat.eqb_spec y x); [discriminate|apply D].
    - constructor; [|cbn [shards locks hs xs]..].
      + eapply (own_take s _ (ByExport x) shard); try reflexivity; auto; [eapply owns_xs; reflexivity|oeq|oeq].
      + intros i o. unfold upd. destruct (Nat.eqb_spec i shard); [intros _; subst; eauto|apply B].
      + intros y i. unfold upd. destruct (Nat.eqb_spec y x); [discriminate|apply C].
      + intros y i l. unfold upd. destruct (Nat.eqb_spec y x); [intros Q; injection Q as <- <-; apply incl_refl|apply D].
    - constructor; [|cbn [shards locks hs xs]..].
      + eapply (own_keep s _ (ByExport x)); try reflexivity; auto; [eapply owns_xs; reflexivity|oeq].
      + auto.
      + intros y i. unfold upd. destruct (Nat.eqb_spec y x); [discriminate|apply C].
      + intros y i l. unfold upd at 1. destruct (Nat.eqb_spec y x).
        * intros Q; injection Q as <- <-. rewrite upd_same, keys_set. intros k W. apply remove_key_incl in W. now apply (D _ _ _ Heqx0).
        * intros Q. unfold upd. destruct (Nat.eqb_spec i shard); [subst; rewrite keys_set|]; now apply (D _ _ _ Q).
    - assert (W : (shard < 16)%nat) by (apply (B shard (ByExport x)), A; cbn [owns]; rewrite Heqx0; reflexivity).
      constructor; [|cbn [shards locks hs xs]..].
      + eapply (own_drop s _ (ByExport x) shard); try reflexivity; auto; [eapply owns_xs; reflexivity|oeq|].
        cbn [owns xs]. rewrite upd_same. destruct (_ <? _)%nat; reflexivity.
      + intros i o. unfold upd. destruct (Nat.eqb_spec i shard); [discriminate|apply B].
      + intros y i. unfold upd. destruct (Nat.eqb_spec y x); [|apply C]. destruct (Nat.ltb_spec (S shard) 16); [|discriminate]. intros Q; injection Q as <-. lia.
      + intros y i l. unfold upd. destruct (Nat.eqb_spec y x); [|apply D]. destruct (_ <? _)%nat; discriminate.
  Qed.

  Lemma locked_run : forall evs s, run newWindow evs = Some s -> locked s.
  Proof.
    induction evs as [|e evs IH] using rev_ind; intros s H.
    - injection H as <-. exact locked_init.
    - apply run_snoc in H as (m & H & R). eapply locked_step; eauto.
  Qed.

  (** ** Conservation *)
  Lemma counted_app : forall a b d, counted (a ++ b) d = counted a d + counted b d.
  Proof. induction a as [|e a IH]; intros b d; [reflexivity|]. destruct e as [| ? [?|] | | | | |]; cbn [app counted]; rewrite ?IH; lia. Qed.
  Lemma exported_app : forall a b d, exported (a ++ b) d = exported a d + exported b d.
  Proof. induction a as [|e a IH]; intros b d; [reflexivity|]. destruct e; cbn [app exported]; rewrite ?IH; lia. Qed.
  Lemma counted_nonneg : forall a d, 0 <= counted a d.
  Proof. induction a as [|e a IH]; intros d; [cbn; lia|]. specialize (IH d). destruct e as [| ? [?|] | | | | |]; cbn [counted]; try lia. destruct (list_eq_dec (list_eq_dec Z.eq_dec) _ d); lia. Qed.

  Lemma point_eqb_eq : forall p q, point_eqb p q = true -> p = q.
  Proof.
    intros [a b c] [a' b' c'] H. unfold point_eqb in H. cbn in H. apply andb_true_iff in H as [H K]. apply andb_true_iff in H as [H L].
    apply beqb_eq in H. apply key_eqb_eq in L. apply Z.eqb_eq in K. congruence.
  Qed.

  Lemma conserved : forall evs s, run newWindow evs = Some s -> forall d, counted evs d <= 2 ^ 53 ->
    exported evs d + in_memory s d = counted evs d /\ (forall i, 0 <= held (shards s i) d) /\ 0 <= exported evs d.
  Proof.
    induction evs as [|e evs IH] using rev_ind; intros s H d L.
    - injection H as <-. repeat split; cbn; lia.
    - apply run_snoc in H as (m & H & R). rewrite counted_app in L. pose proof (counted_nonneg [e] d) as N.
      destruct (IH m H d ltac:(lia)) as (E & P & X). pose proof (locked_run _ _ H) as [A B C D].
      rewrite counted_app, exported_app.
      assert (M : forall i, (i < 16)%nat -> held (shards m i) d <= in_memory m d).
      { intros i W. apply sum_bound; [|apply in_map_iff; exists i; split; auto; apply in_seq; lia].
        intros y Q. apply in_map_iff in Q as (j & <- & _). apply P. }
      assert (F : forall s', shards s' = shards m -> in_memory s' d = in_memory m d) by (intros s' Q; unfold in_memory; now rewrite Q).
      destruct e as [h goid properties|h o|h|x|x|x p|x]; cbn [StatsModel.step] in R; cases R; injection R as <-; cbn [counted exported shards];
        try (rewrite F by reflexivity; repeat split; auto; lia).
      + assert (W : (shard < 16)%nat) by (apply (B shard (ByHandle h)), A; cbn [owns]; rewrite Heqh0; reflexivity).
        erewrite in_memory_upd by (eauto; reflexivity). destruct (list_eq_dec (list_eq_dec Z.eq_dec) l d) as [->|Q].
        * cbn [counted] in L. destruct (list_eq_dec (list_eq_dec Z.eq_dec) d d); [|congruence].
          specialize (M shard W). specialize (P shard) as P'. rewrite held_increment_same by lia.
          repeat split; auto; try lia. intros i. unfold upd. destruct (Nat.eqb_spec i shard); [rewrite held_increment_same; lia|apply P].
        * rewrite held_increment_other by auto. repeat split; auto; try lia.
          intros i. unfold upd. destruct (Nat.eqb_spec i shard); [subst; rewrite held_increment_other by auto|]; apply P.
      + assert (W : (shard < 16)%nat) by (apply (B shard (ByExport x)), A; cbn [owns]; rewrite Heqx0; reflexivity).
        destruct p as [pe pd pv]. apply point_eqb_eq in Heqb0. cbn [Dimension Value] in *. injection Heqb0 as -> ->.
        erewrite in_memory_upd by (eauto; reflexivity). destruct (list_eq_dec (list_eq_dec Z.eq_dec) pd d) as [->|Q].
        * assert (K : held (shards m shard) d = z) by (unfold held; rewrite Heqo; reflexivity).
          specialize (M shard W). specialize (P shard) as P'. cbn [counted] in L.
          rewrite (held_set_same _ _ _ Heqo). rewrite float64_exact by lia. repeat split; try lia.
          intros i. unfold upd. destruct (Nat.eqb_spec i shard); [subst; rewrite (held_set_same _ _ _ Heqo); lia|apply P].
        * rewrite held_set_other by auto. repeat split; auto; try lia.
          intros i. unfold upd. destruct (Nat.eqb_spec i shard); [subst; rewrite held_set_other by auto|]; apply P.
  Qed.

  (** ** A whole export *)
  (** Shards before the one the export x is at hold nothing. *)
  Definition emptied (s : window) (x : nat) : Prop :=
    match xs s x with
    | XFresh => False
    | XBefore i => forall j d, (j < i)%nat -> held (shards s j) d = 0
    | XIn i l => (forall j d, (j < i)%nat -> held (shards s j) d = 0) /\ forall d, In d l \/ held (shards s i) d = 0
    | XReturned => forall j d, (j < 16)%nat -> held (shards s j) d = 0
    end.

  Lemma held_set_zero : forall m d d', held m d' = 0 -> held (set_entry m d 0) d' = 0.
  Proof.
    induction m as [|[k c] m IH]; intros d d' H; unfold held in *; cbn [set_entry get] in *; [reflexivity|].
    destruct (key_eqb k d) eqn:E; cbn [get]; destruct (key_eqb k d'); auto.
  Qed.

  Lemma emptied_mono : forall s s' x, xs s' x = xs s x -> (forall j d, held (shards s j) d = 0 -> held (shards s' j) d = 0) -> emptied s x -> emptied s' x.
  Proof.
    intros s s' x E H K. unfold emptied in *. rewrite E. destruct (xs s x); auto.
    destruct K as [K L]. split; auto. intros d. destruct (L d); auto.
  Qed.

  Lemma emptied_step : forall s e s' x, (forall h d, e <> HExtract h (Some d)) -> step s e = Some s' -> emptied s x -> emptied s' x.
  Proof.
    intros s e s' x N R K.
    destruct e as [h goid properties|h o|h|y|y|y p|y]; cbn [StatsModel.step] in R; cases R; injection R as <-;
      try (eapply emptied_mono; [| |exact K]; [reflexivity|auto]; fail).
    - exfalso. eapply N. reflexivity.
    - destruct (Nat.eq_dec x y) as [->|Q].
      + unfold emptied in K. rewrite Heqx0 in K. destruct K.
      + eapply emptied_mono; [| |exact K]; cbn [xs shards]; [now apply upd_other|auto].
    - destruct (Nat.eq_dec x y) as [->|Q].
      + unfold emptied in *. rewrite Heqx0 in K. cbn [xs shards]. rewrite upd_same. split; [exact K|].
        intros d. destruct (get (shards s shard) d) eqn:G; [left; eapply get_some_in; eauto|right; unfold held; now rewrite G].
      + eapply emptied_mono; [| |exact K]; cbn [xs shards]; [now apply upd_other|auto].
    - assert (Z : forall j d, held (shards s j) d = 0 -> held (upd (shards s) shard (set_entry (shards s shard) (Dimension p) 0) j) d = 0).
      { intros j d E. unfold upd. destruct (Nat.eqb_spec j shard); [subst; now apply held_set_zero|exact E]. }
      destruct (Nat.eq_dec x y) as [->|Q].
      + unfold emptied in *. rewrite Heqx0 in K. cbn [xs shards]. rewrite upd_same. destruct K as [K L]. split; [auto|].
        intros d. destruct (list_eq_dec (list_eq_dec Z.eq_dec) d (Dimension p)) as [->|M].
        * right. rewrite upd_same. eapply held_set_same; eauto.
        * destruct (L d) as [W|W]; [left; now apply remove_key_in|right; auto].
      + eapply emptied_mono; [| |exact K]; cbn [xs shards]; [now apply upd_other|exact Z].
    - destruct (Nat.eq_dec x y) as [->|Q].
      + unfold emptied in *. rewrite Heqx0 in K. cbn [xs shards]. rewrite upd_same. destruct K as [K L].
        assert (W : forall j d, (j < S shard)%nat -> held (shards s j) d = 0).
        { intros j d M. destruct (Nat.eq_dec j shard) as [->|M']; [destruct (L d) as [[]|E]; exact E|apply K; lia]. }
        destruct (Nat.ltb_spec (S shard) 16); [exact W|]. intros j d M. apply W. lia.
      + eapply emptied_mono; [| |exact K]; cbn [xs shards]; [now apply upd_other|auto].
  Qed.

  Lemma emptied_run : forall evs s s' x, nothing_counted evs -> run s evs = Some s' -> emptied s x -> emptied s' x.
  Proof.
    induction evs as [|e evs IH]; intros s s' x N R K.
    - injection R as <-. exact K.
    - cbn in R. destruct (step s e) as [m|] eqn:E; [|discriminate R]. eapply IH; eauto.
      + intros h d Q. eapply N. right. exact Q.
      + eapply emptied_step; eauto. intros h d ->. eapply N. left. reflexivity.
  Qed.

  Lemma flushed : forall evs1 x evs2 s, run newWindow (evs1 ++ XCall x :: evs2) = Some s -> nothing_counted evs2 -> xs s x = XReturned ->
    forall d, in_memory s d = 0.
  Proof.
    intros evs1 x evs2 s R N E d. rewrite run_app in R. destruct (run newWindow evs1) as [m|]; [|discriminate R].
    change (match step m (XCall x) with Some s' => run s' evs2 | None => None end = Some s) in R.
    destruct (step m (XCall x)) as [m'|] eqn:Q; [|discriminate R].
    assert (K : emptied m' x).
    { cbn [StatsModel.step] in Q. cases Q. injection Q as <-. unfold emptied. cbn [xs]. rewrite upd_same. intros j d' L. lia. }
    apply (emptied_run _ _ _ _ N R) in K. unfold emptied in K. rewrite E in K.
    unfold in_memory. replace (map _ _) with (repeat 0 16); [reflexivity|].
    symmetry. transitivity (map (fun _ => 0) (seq 0 16)); [|reflexivity]. apply map_ext_in. intros j L. apply in_seq in L. apply K. lia.
  Qed.

  (** ** The lock that is never released *)
  Lemma panicked_stays : forall s e s' h i, hs s h = HPanicked i -> step s e = Some s' -> hs s' h = HPanicked i.
  Proof.
    intros s e s' h i H R.
    destruct e as [h' goid properties|h' o|h'|y|y|y p|y]; cbn [StatsModel.step] in R; cases R; injection R as <-; cbn [hs]; auto;
      apply eq_trans with (2 := H); apply upd_other; intros ->; congruence.
  Qed.
  Lemma panicked_run : forall evs s s' h i, hs s h = HPanicked i -> run s evs = Some s' -> hs s' h = HPanicked i.
  Proof.
    induction evs as [|e evs IH]; intros s s' h i H R.
    - injection R as <-. exact H.
    - cbn in R. destruct (step s e) as [m|] eqn:E; [|discriminate R]. eapply IH; [|exact R]. eapply panicked_stays; eauto.
  Qed.
  Lemma blocked : forall evs s h i evs' s', run newWindow evs = Some s -> hs s h = HPanicked i -> run s evs' = Some s' ->
    locks s' i = Some (ByHandle h).
  Proof.
    intros evs s h i evs' s' A B C. assert (L : locked s') by (apply (locked_run (evs ++ evs')); rewrite run_app, A; exact C).
    apply (lk_own _ L). cbn [owns]. rewrite (panicked_run _ _ _ _ _ B C). reflexivity.
  Qed.

  (** Without such a panic every lock can be released. *)
  Lemma export_ends : forall n s x i l, locked s -> xs s x = XIn i l -> List.length l = n ->
    exists evs s', run s evs = Some s' /\ locks s' i = None /\ hs s' = hs s.
  Proof.
    induction n as [|n IH]; intros s x i l L E N.
    - destruct l; [|discriminate N].
      exists [XUnlock x]. cbn [StatsModel.run StatsModel.step]. rewrite E. eexists. split; [reflexivity|].
      cbn [locks hs]. split; [apply upd_same|reflexivity].
    - destruct l as [|k l]; [discriminate N|].
      assert (K : In k (map fst (shards s i))) by (apply (lk_in _ L _ _ _ E); now left).
      destruct (get_in _ _ K) as (c & G).
      set (e := XCollect x (mkPoint [] k (float64 c))).
      assert (R : step s e = Some (mkWindow (upd (shards s) i (set_entry (shards s i) k 0)) (locks s) (hs s)
                (upd (xs s) x (XIn i (remove_key (k :: l) k))))).
      { subst e. cbn [StatsModel.step Dimension]. rewrite E. cbn [existsb]. rewrite key_eqb_refl. cbn [orb]. rewrite G.
        unfold point_eqb. cbn [Event Dimension Value]. rewrite key_eqb_refl, Z.eqb_refl.
        destruct (bytes_eqb [] []) eqn:Q; [reflexivity|]. apply not_true_iff_false in Q. exfalso. apply Q. now apply beqb_eq. }
      pose proof (locked_step _ _ _ L R) as L'.
      destruct (IH _ x i (remove_key (k :: l) k) L' (upd_same _ _ _ _)) as (evs & s' & A & B & C).
      { pose proof (remove_key_length (k :: l) k (or_introl eq_refl)) as W. lia. }
      exists (e :: evs), s'. cbn [StatsModel.run]. rewrite R. auto.
  Qed.
  Lemma releasable : forall s i, locked s -> (forall h, hs s h <> HPanicked i) ->
    (forall h p, hs s h = HLocked i p -> extract indices p <> None) ->
    exists evs s', run s evs = Some s' /\ locks s' i = None.
  Proof.
    intros s i L P X. destruct (locks s i) as [o|] eqn:E.
    - pose proof (proj2 (lk_own _ L _ _) E) as O. destruct o as [h|x]; cbn [owns] in O.
      + destruct (hs s h) as [|j p|j| |j] eqn:H; try discriminate O; injection O as ->.
        * specialize (X _ _ H). destruct (extract indices p) as [d|] eqn:Q; [|congruence].
          exists [HExtract h (Some d); HUnlock h]. cbn [StatsModel.run StatsModel.step]. rewrite H, Q. cbn [option_key_eqb]. rewrite key_eqb_refl.
          cbn [hs]. rewrite upd_same. eexists. split; [reflexivity|]. apply upd_same.
        * exists [HUnlock h]. cbn [StatsModel.run StatsModel.step]. rewrite H. eexists. split; [reflexivity|]. apply upd_same.
        * destruct (P h H).
      + destruct (xs s x) as [|j|j l|] eqn:H; try discriminate O; injection O as ->.
        destruct (export_ends _ s x i l L H eq_refl) as (evs & s' & A & B & _). eauto.
    - exists [], s. auto.
  Qed.

  (** ** Points *)
  Lemma points_unnamed : forall evs s s' x p, run s evs = Some s' -> In (XCollect x p) evs -> Event p = [].
  Proof.
    induction evs as [|e evs IH]; intros s s' x p R H; [destruct H|]. cbn in R. destruct (step s e) as [m|] eqn:E; [|discriminate R].
    destruct H as [->|H]; [|eapply IH; eauto]. cbn [StatsModel.step] in E. cases E. apply point_eqb_eq in Heqb0. now rewrite Heqb0.
  Qed.
End Run.

(** * Dimensions *)
Lemma splitComma_joined : forall names acc, names <> [] -> Forall (fun n => ~ In 44 n) names ->
  splitComma acc (joined names) = match names with n :: r => (acc ++ n) :: r | [] => [] end.
Proof.
  assert (P : forall n acc rest, ~ In 44 n -> splitComma acc (n ++ rest) = splitComma (acc ++ n) rest).
  { induction n as [|c n IH]; intros acc rest H; [now rewrite app_nil_r|]. cbn [app splitComma].
    destruct (Z.eqb_spec c 44); [exfalso; apply H; now left|]. rewrite IH by (intros Q; apply H; now right). now rewrite <- app_assoc. }
  induction names as [|n names IH]; intros acc N F; [congruence|]. inversion F as [|? ? F1 F2]; subst. destruct names as [|n' names].
  - cbn [joined]. rewrite <- (app_nil_r n) at 1. rewrite P by auto. reflexivity.
  - change (joined (n :: n' :: names)) with (n ++ bs "," ++ joined (n' :: names)). rewrite P by auto.
    change (bs "," ++ joined (n' :: names)) with (44 :: joined (n' :: names)). cbn [splitComma Z.eqb Pos.eqb].
    rewrite IH by (auto; discriminate). reflexivity.
Qed.

Lemma bytes_eqb_spec : forall a b, reflect (a = b) (bytes_eqb a b).
Proof. intros a b. destruct (bytes_eqb a b) eqn:E; constructor; [now apply beqb_eq|]. intros ->. apply not_true_iff_false in E. apply E. now apply beqb_eq. Qed.

Lemma findDim_app : forall before acc rest, Forall (fun kv => fst kv = bs "dim" -> exists s, snd kv = VStr s) before ->
  exists acc', findDim acc (flat before ++ rest) = findDim acc' rest.
Proof.
  induction before as [|[k v] before IH]; intros acc rest H; [exists acc; reflexivity|]. inversion H as [|? ? H1 H2]; subst.
  change (flat ((k, v) :: before) ++ rest) with (VStr k :: v :: (flat before ++ rest)). cbn [findDim].
  destruct (bytes_eqb_spec k (bs "dim")) as [E|E].
  - destruct (H1 E) as (s & Q); cbn [snd] in Q; subst v. now apply IH.
  - now apply IH.
Qed.
Lemma findDim_none : forall after acc, Forall (fun kv => fst kv <> bs "dim") after -> findDim acc (flat after) = Some acc.
Proof.
  induction after as [|[k v] after IH]; intros acc H; [reflexivity|]. inversion H as [|? ? H1 H2]; subst.
  change (flat ((k, v) :: after)) with (VStr k :: v :: flat after). cbn [findDim].
  destruct (bytes_eqb_spec k (bs "dim")) as [E|E]; [destruct (H1 E)|]. now apply IH.
Qed.

Lemma here_repeat : forall (A : Type) (x : list A) k names,
  flat_map (fun d => if bytes_eqb k d then x else []) names = List.concat (repeat x (count_occ (list_eq_dec Z.eq_dec) names k)).
Proof.
  induction names as [|n names IH]; [reflexivity|]. cbn [flat_map count_occ]. rewrite IH.
  destruct (bytes_eqb_spec k n) as [->|E]; destruct (list_eq_dec Z.eq_dec n _); try congruence; try reflexivity.
Qed.

Lemma extract_app : forall a b p, extract (a ++ b) p = let? x := extract a p in let? y := extract b p in Some (x ++ y).
Proof.
  induction a as [|i a IH]; intros b p; cbn [app extract obind].
  - destruct (extract b p); reflexivity.
  - destruct (nth_error p i) as [[]|]; try reflexivity. rewrite IH. destruct (extract a p); cbn [obind]; [|reflexivity]. destruct (extract b p); reflexivity.
Qed.
Lemma extract_repeat : forall n i p a b, nth_error p i = Some (VStr a) -> nth_error p (S i) = Some (VStr b) ->
  extract (List.concat (repeat [i; S i] n)) p = Some (List.concat (repeat [a; b] n)).
Proof.
  induction n as [|n IH]; intros i p a b A B; [reflexivity|]. cbn [repeat List.concat app extract]. rewrite A, B. rewrite (IH i p a b) by auto. reflexivity.
Qed.

Lemma indices_extract : forall names sample i before,
  i = List.length before -> forall kvs : list (bytes * value), map fst kvs = map fst sample ->
  forall strs : list (bytes * bytes), Forall2 (fun kv s => fst s = fst kv /\ (In (fst kv) names -> snd kv = VStr (snd s))) kvs strs ->
  exists idx, findIndices names i (flat sample) = Some idx /\ extract idx (before ++ flat kvs) = Some (dimension names strs).
Proof.
  induction sample as [|[k v] sample IH]; intros i before L kvs K strs F.
  - destruct kvs; [|discriminate K]. inversion F; subst. exists []. split; reflexivity.
  - destruct kvs as [|[k' v'] kvs]; [discriminate K|]. injection K as -> K. inversion F as [|? [sk sv] ? strs' [F1 F2] F3]; subst. cbn [fst snd] in *. subst sk.
    destruct (IH (List.length before + 2)%nat (before ++ [VStr k; v']) ltac:(rewrite app_length; reflexivity) kvs K strs' F3) as (idx & A & B).
    change (flat ((k, v) :: sample)) with (VStr k :: v :: flat sample).
    exists (flat_map (fun d => if bytes_eqb k d then [List.length before; S (List.length before)] else []) names ++ idx).
    split; [cbn [findIndices]; rewrite A; reflexivity|].
    rewrite extract_app. replace (before ++ flat ((k, v') :: kvs)) with ((before ++ [VStr k; v']) ++ flat kvs) by (rewrite <- app_assoc; reflexivity).
    rewrite B. rewrite here_repeat.
    assert (X : extract (List.concat (repeat [List.length before; S (List.length before)] (count_occ (list_eq_dec Z.eq_dec) names k))) ((before ++ [VStr k; v']) ++ flat kvs) =
      Some (List.concat (repeat [k; sv] (count_occ (list_eq_dec Z.eq_dec) names k)))).
    { destruct (in_dec (list_eq_dec Z.eq_dec) k names) as [Q|Q].
      - rewrite (F2 Q). apply extract_repeat; rewrite <- app_assoc, nth_error_app2 by lia.
        + rewrite Nat.sub_diag. reflexivity.
        + replace (S (List.length before) - List.length before)%nat with 1%nat by lia. reflexivity.
      - apply (count_occ_not_In (list_eq_dec Z.eq_dec)) in Q. rewrite Q. reflexivity. }
    rewrite X. reflexivity.
Qed.

Lemma extract_none : forall idx p, extract idx p = None <-> exists i, In i idx /\ forall s, nth_error p i <> Some (VStr s).
Proof.
  induction idx as [|i idx IH]; intros p; cbn [extract].
  - split; [discriminate|]. intros (i & [] & _).
  - split.
    + intros H. destruct (nth_error p i) as [[s| | | |]|] eqn:E; try (exists i; split; [now left|rewrite E; congruence]).
      destruct (extract idx p) eqn:X; [discriminate H|]. destruct (proj1 (IH p) X) as (j & J & N). exists j. split; [now right|auto].
    + intros (j & [->|J] & N).
      * destruct (nth_error p j) as [[s| | | |]|]; try reflexivity. destruct (N s eq_refl).
      * assert (X : extract idx p = None) by (apply IH; eauto). rewrite X. destruct (nth_error p i) as [[]|]; reflexivity.
Qed.

(** * exportEverySecond *)

Lemma gruns_exports : forall evs s s', gruns s evs = Some s' ->
  (exports evs + match etimer s' with Taken => 0 | _ => 1 end <= match etimer s with Taken => 0 | _ => 1 end)%nat.
Proof.
  unfold exports. induction evs as [|e evs IH]; intros s s' H.
  - injection H as <-. cbn. lia.
  - cbn [gruns] in H. destruct (gstep s e) as [m|] eqn:E; [|discriminate H]. specialize (IH _ _ H).
    destruct e; cbn [filter List.length] in *; cbn [gstep] in E;
      repeat match type of E with match ?x with _ => _ end = Some _ => destruct x eqn:?; try discriminate E end;
      injection E as <-; cbn [etimer] in *; lia.
Qed.
