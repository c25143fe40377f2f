(** Invariants of the async writers. *)
From Verif Require Import Base AsyncModel AsyncSpec.
Require Import Permutation.

Lemma put_length : forall h a x, List.length (put h a x) = List.length h.
Proof. induction h as [|y h IH]; intros [|a] x; cbn [put List.length]; [reflexivity..|]. rewrite IH. reflexivity. Qed.
Lemma put_other : forall h a b x d, a <> b -> nth b (put h a x) d = nth b h d.
Proof. induction h as [|y h IH]; intros [|a] [|b] x d N; cbn [put nth]; try reflexivity; [congruence | apply IH; congruence]. Qed.
Lemma bytes_eqb_true : forall a b, bytes_eqb a b = true -> a = b.
Proof. intros a b. unfold bytes_eqb. destruct (list_eq_dec Z.eq_dec a b); [auto | discriminate]. Qed.
Lemma bytes_eqb_refl : forall a, bytes_eqb a a = true.
Proof. intros a. unfold bytes_eqb. destruct (list_eq_dec Z.eq_dec a a); [reflexivity | congruence]. Qed.
Lemma inb_true : forall a l, inb a l = true <-> In a l.
Proof.
  intros a l. unfold inb. rewrite existsb_exists. split; [intros [x [A B]]; apply Nat.eqb_eq in B; subst; exact A | intro A; exists a; split; [exact A | apply Nat.eqb_refl]].
Qed.

Lemma record_of_app : forall evs l w, In w (called evs) -> record_of (evs ++ l) w = record_of evs w.
Proof.
  induction evs as [|e evs IH]; intros l w I; [destruct I|].
  destruct e as [r|b r|v b r|v|v r| | | | | |r x| |]; cbn [app record_of]; try (apply IH; exact I).
  destruct (Nat.eqb_spec v w) as [E|N]; [reflexivity|]. apply IH. destruct I as [I|I]; [congruence | exact I].
Qed.
Lemma record_of_new : forall evs w b r, ~ In w (called evs) -> record_of (evs ++ [WCall w b r]) w = r.
Proof.
  induction evs as [|e evs IH]; intros w b r N; [cbn [app record_of]; rewrite Nat.eqb_refl; reflexivity|].
  destruct e as [r'|b' r'|v b' r'|v|v r'| | | | | |r' x| |]; cbn [app record_of]; try (apply IH; exact N).
  destruct (Nat.eqb_spec v w) as [E|E]; [destruct N; left; exact E|]. apply IH. intro I. apply N. right; exact I.
Qed.
Lemma called_snoc : forall evs e, called (evs ++ [e]) = called evs ++ match e with WCall w _ _ => [w] | _ => [] end.
Proof. intros. unfold called. rewrite flat_map_app. cbn [flat_map]. rewrite app_nil_r. reflexivity. Qed.
Lemma sent_snoc : forall evs e, sent (evs ++ [e]) = sent evs ++ match e with WSend w => [w] | _ => [] end.
Proof. intros. unfold sent. rewrite flat_map_app. cbn [flat_map]. rewrite app_nil_r. reflexivity. Qed.
Lemma dropped_snoc : forall evs e, dropped (evs ++ [e]) = dropped evs ++ match e with WDrop w _ => [w] | _ => [] end.
Proof. intros. unfold dropped. rewrite flat_map_app. cbn [flat_map]. rewrite app_nil_r. reflexivity. Qed.
Lemma written_snoc : forall evs e, written (evs ++ [e]) = written evs ++ match e with GWrite r _ => [r] | _ => [] end.
Proof. intros. unfold written. rewrite flat_map_app. cbn [flat_map]. rewrite app_nil_r. reflexivity. Qed.

Section Proofs.
  Variable IsQueueBlocking : bool.
  Variable queueLength : nat.
  Notation step := (step IsQueueBlocking queueLength).
  Notation run := (run IsQueueBlocking queueLength).

  Lemma run_snoc : forall evs s e, run s (evs ++ [e]) = match run s evs with Some s' => step s' e | None => None end.
  Proof.
    induction evs as [|x evs IH]; intros s e; cbn [AsyncModel.run app].
    - destruct (step s e); reflexivity.
    - destruct (step s x); [apply IH | reflexivity].
  Qed.
  Lemma run_app : forall a b s, run s (a ++ b) = match run s a with Some s' => run s' b | None => None end.
  Proof.
    induction a as [|x a IH]; intros b s; cbn [AsyncModel.run app]; [reflexivity|]. destruct (step s x); [apply IH | reflexivity].
  Qed.

  (** The buffers not handed over yet: the one the goroutine took, then the queue. *)
  Definition held (s : writer) : list nat := match g s with GWriting b | GLastWriting b => [b] | _ => [] end ++ queue s.
  Definition contents (s : writer) (l : list nat) : list bytes := map (fun b => nth b (heap s) []) l.

  Record inv (evs : list event) (s : writer) : Prop := mkInv {
    i_callers : forall b, In b (callers s) -> (b < List.length (heap s))%nat;
    i_copied : forall w c d, ws s w = WCopied c d ->
      (d < List.length (heap s))%nat /\ ~ In d (callers s) /\ nth d (heap s) [] = record_of evs w;
    i_held : forall b, In b (held s) -> (b < List.length (heap s))%nat /\ ~ In b (callers s);
    i_flow : accepted evs = written evs ++ contents s (held s);
    i_room : (List.length (queue s) <= queueLength)%nat;
    i_called : forall w, In w (called evs) <-> ws s w <> WFresh;
    i_sent : forall w, In w (sent evs) <-> ws s w = WSent;
    i_dropped : forall w, In w (dropped evs) <-> ws s w = WDropped;
    i_ncalled : NoDup (called evs);
    i_nsent : NoDup (sent evs);
    i_ndropped : NoDup (dropped evs)
  }.

  Lemma upd_same : forall f w x, upd f w x w = x. Proof. intros. unfold upd. rewrite Nat.eqb_refl. reflexivity. Qed.
  Lemma upd_other : forall f w x v, v <> w -> upd f w x v = f v.
  Proof. intros f w x v N. unfold upd. apply Nat.eqb_neq in N. rewrite N. reflexivity. Qed.

  Lemma nodup_snoc : forall (l : list nat) x, NoDup l -> ~ In x l -> NoDup (l ++ [x]).
  Proof.
    induction l as [|y l IH]; intros x N I; cbn [app]; [constructor; [intros [] | constructor]|].
    inversion N as [|a b N1 N2]; subst. constructor.
    - rewrite in_app_iff. intros [A|[A|[]]]; [exact (N1 A) | apply I; left; congruence].
    - apply IH; [exact N2 | intro A; apply I; right; exact A].
  Qed.

  Lemma accepted_snoc : forall evs s e, inv evs s -> accepted (evs ++ [e]) =
    accepted evs ++ match e with WSend w => [record_of (evs ++ [e]) w] | _ => [] end.
  Proof.
    intros evs s e I. unfold accepted. rewrite sent_snoc, map_app. apply f_equal2.
    - apply map_ext_in. intros w W. apply record_of_app. rewrite (i_called _ _ I). apply (i_sent _ _ I) in W. rewrite W. discriminate.
    - destruct e; reflexivity.
  Qed.

  (** Steps of the goroutine and of Close: the records, the buffers and the calls stay. *)
  Lemma inv_quiet : forall evs s e s', inv evs s ->
    (match e with Alloc _ | Change _ _ | WCall _ _ _ | WSend _ | WDrop _ _ => False | _ => True end) ->
    heap s' = heap s -> callers s' = callers s -> ws s' = ws s ->
    (List.length (queue s') <= List.length (queue s))%nat ->
    contents s (held s) = match e with GWrite r _ => [r] | _ => [] end ++ contents s (held s') ->
    (forall b, In b (held s') -> In b (held s)) ->
    inv (evs ++ [e]) s'.
  Proof.
    intros evs s e s' I Q H C W R F B.
    assert (RE : forall w, record_of (evs ++ [e]) w = record_of evs w).
    { intro w. clear - Q. induction evs as [|x evs IH]; [destruct e; try destruct Q; reflexivity|].
      destruct x as [r|b r|v b r|v|v r| | | | | |r x| |]; cbn [app record_of]; try exact IH. destruct (v =? w)%nat; [reflexivity | exact IH]. }
    constructor.
    - intro b. rewrite H, C. apply (i_callers _ _ I).
    - intros w c d X. rewrite W in X. rewrite H, C, RE. exact (i_copied _ _ I w c d X).
    - intros b X. rewrite H, C. apply (i_held _ _ I). exact (B b X).
    - rewrite (accepted_snoc _ _ _ I), written_snoc, (i_flow _ _ I), F. unfold contents. rewrite H.
      destruct e; try destruct Q; rewrite ?app_nil_r, <- ?app_assoc; reflexivity.
    - pose proof (i_room _ _ I). lia.
    - intro w. rewrite called_snoc, W. destruct e; try destruct Q; rewrite ?app_nil_r; apply (i_called _ _ I).
    - intro w. rewrite sent_snoc, W. destruct e; try destruct Q; rewrite ?app_nil_r; apply (i_sent _ _ I).
    - intro w. rewrite dropped_snoc, W. destruct e; try destruct Q; rewrite ?app_nil_r; apply (i_dropped _ _ I).
    - rewrite called_snoc. destruct e; try destruct Q; rewrite ?app_nil_r; apply (i_ncalled _ _ I).
    - rewrite sent_snoc. destruct e; try destruct Q; rewrite ?app_nil_r; apply (i_nsent _ _ I).
    - rewrite dropped_snoc. destruct e; try destruct Q; rewrite ?app_nil_r; apply (i_ndropped _ _ I).
  Qed.

  Lemma contents_stable : forall s s' l, (forall b, In b l -> nth b (heap s') [] = nth b (heap s) []) -> contents s' l = contents s l.
  Proof. intros s s' l H. unfold contents. apply map_ext_in. exact H. Qed.

  Lemma inv_step : forall evs s e s', inv evs s -> step s e = Some s' -> inv (evs ++ [e]) s'.
  Proof.
    intros evs s e s' I E. destruct e as [rec|buf rec|w buf rec|w|w rec| | | | | |rec r| |]; cbn [AsyncModel.step] in E.
    - (* Alloc *) injection E as <-. destruct I as [I1 I2 I3 I4 I5 I6 I7 I8 I9 I10 I11].
      assert (RE : forall w, In w (called evs) -> record_of (evs ++ [Alloc rec]) w = record_of evs w) by (intros; apply record_of_app; assumption).
      constructor; cbn [heap callers ws queue g].
      + intros b [X|X]; rewrite app_length; cbn [List.length]; [lia|]. apply I1 in X. lia.
      + intros w c d X. destruct (I2 w c d X) as [A [B C]]. rewrite app_length, app_nth1 by exact A. cbn [List.length In].
        split; [lia|]. split; [intros [Y|Y]; [lia | exact (B Y)]|]. rewrite RE; [exact C|]. apply I6. rewrite X. discriminate.
      + intros b X. destruct (I3 b X) as [A B]. rewrite app_length. cbn [List.length In]. split; [lia|]. intros [Y|Y]; [lia | exact (B Y)].
      + unfold accepted. rewrite sent_snoc, written_snoc, !app_nil_r. transitivity (accepted evs).
        * apply map_ext_in. intros w W. apply RE. apply I6. apply I7 in W. rewrite W. discriminate.
        * rewrite I4. apply f_equal2; [reflexivity|]. symmetry. apply contents_stable. intros b X. cbn [heap]. destruct (I3 b X) as [A _]. apply app_nth1. exact A.
      + exact I5.
      + intro w. rewrite called_snoc, app_nil_r. apply I6.
      + intro w. rewrite sent_snoc, app_nil_r. apply I7.
      + intro w. rewrite dropped_snoc, app_nil_r. apply I8.
      + rewrite called_snoc, app_nil_r. exact I9.
      + rewrite sent_snoc, app_nil_r. exact I10.
      + rewrite dropped_snoc, app_nil_r. exact I11.
    - (* Change *) destruct (inb buf (callers s)) eqn:IB; [|discriminate E]. injection E as <-. apply inb_true in IB.
      destruct I as [I1 I2 I3 I4 I5 I6 I7 I8 I9 I10 I11].
      assert (RE : forall w, In w (called evs) -> record_of (evs ++ [Change buf rec]) w = record_of evs w) by (intros; apply record_of_app; assumption).
      constructor; cbn [heap callers ws queue g].
      + intros b X. rewrite put_length. exact (I1 b X).
      + intros w c d X. destruct (I2 w c d X) as [A [B C]]. rewrite put_length, put_other by congruence.
        split; [exact A|]. split; [exact B|]. rewrite RE; [exact C|]. apply I6. rewrite X. discriminate.
      + intros b X. rewrite put_length. exact (I3 b X).
      + unfold accepted. rewrite sent_snoc, written_snoc, !app_nil_r. transitivity (accepted evs).
        * apply map_ext_in. intros w W. apply RE. apply I6. apply I7 in W. rewrite W. discriminate.
        * rewrite I4. apply f_equal2; [reflexivity|]. symmetry. apply contents_stable. intros b X. cbn [heap]. destruct (I3 b X) as [_ B]. apply put_other. congruence.
      + exact I5.
      + intro w. rewrite called_snoc, app_nil_r. apply I6.
      + intro w. rewrite sent_snoc, app_nil_r. apply I7.
      + intro w. rewrite dropped_snoc, app_nil_r. apply I8.
      + rewrite called_snoc, app_nil_r. exact I9.
      + rewrite sent_snoc, app_nil_r. exact I10.
      + rewrite dropped_snoc, app_nil_r. exact I11.
    - (* WCall *) destruct (ws s w) eqn:WS; try discriminate E. destruct (nth_error (heap s) buf) as [content|] eqn:NE; [|discriminate E].
      destruct (inb buf (callers s)) eqn:IB; [|discriminate E]. destruct (bytes_eqb content rec) eqn:BE; [|discriminate E].
      cbn [andb] in E. injection E as <-. apply bytes_eqb_true in BE. subst content.
      destruct I as [I1 I2 I3 I4 I5 I6 I7 I8 I9 I10 I11].
      assert (NC : ~ In w (called evs)) by (rewrite I6, WS; auto).
      assert (RE : forall v, In v (called evs) -> record_of (evs ++ [WCall w buf rec]) v = record_of evs v) by (intros; apply record_of_app; assumption).
      constructor; cbn [heap callers ws queue g].
      + intros b X. rewrite app_length. apply I1 in X. lia.
      + intros v c d X. destruct (Nat.eq_dec v w) as [->|N].
        * rewrite upd_same in X. injection X as <- <-. rewrite app_length, nth_middle. cbn [List.length].
          split; [lia|]. split; [intro Y; apply I1 in Y; lia|]. rewrite record_of_new by exact NC. reflexivity.
        * rewrite upd_other in X by exact N. destruct (I2 v c d X) as [A [B C]]. rewrite app_length, app_nth1 by exact A.
          split; [lia|]. split; [exact B|]. rewrite RE; [exact C|]. apply I6. rewrite X. discriminate.
      + intros b X. destruct (I3 b X) as [A B]. rewrite app_length. split; [lia | exact B].
      + unfold accepted. rewrite sent_snoc, written_snoc, !app_nil_r. transitivity (accepted evs).
        * apply map_ext_in. intros v W. apply RE. apply I6. apply I7 in W. rewrite W. discriminate.
        * rewrite I4. apply f_equal2; [reflexivity|]. symmetry. apply contents_stable. intros b X. cbn [heap]. destruct (I3 b X) as [A _]. apply app_nth1. exact A.
      + exact I5.
      + intro v. rewrite called_snoc, in_app_iff, I6. cbn [In]. destruct (Nat.eq_dec v w) as [->|N].
        * rewrite upd_same. split; [discriminate | auto].
        * rewrite upd_other by exact N. split; [intros [X|[X|[]]]; [exact X | congruence] | auto].
      + intro v. rewrite sent_snoc, app_nil_r, I7. destruct (Nat.eq_dec v w) as [->|N]; [rewrite upd_same, WS; split; discriminate | rewrite upd_other by exact N; reflexivity].
      + intro v. rewrite dropped_snoc, app_nil_r, I8. destruct (Nat.eq_dec v w) as [->|N]; [rewrite upd_same, WS; split; discriminate | rewrite upd_other by exact N; reflexivity].
      + rewrite called_snoc. apply nodup_snoc; assumption.
      + rewrite sent_snoc, app_nil_r. exact I10.
      + rewrite dropped_snoc, app_nil_r. exact I11.
    - (* WSend *) destruct (ws s w) as [|c d| |] eqn:WS; try discriminate E.
      destruct (Nat.ltb_spec (List.length (queue s)) queueLength) as [L|]; [|discriminate E]. injection E as <-.
      pose proof I as J. destruct I as [I1 I2 I3 I4 I5 I6 I7 I8 I9 I10 I11]. destruct (I2 w c d WS) as [A [B C]].
      assert (IC : In w (called evs)) by (rewrite I6, WS; discriminate).
      assert (RE : forall v, In v (called evs) -> record_of (evs ++ [WSend w]) v = record_of evs v) by (intros; apply record_of_app; assumption).
      constructor; cbn [heap callers ws queue g].
      + exact I1.
      + intros v c' d' X. destruct (Nat.eq_dec v w) as [->|N]; [rewrite upd_same in X; discriminate X|]. rewrite upd_other in X by exact N.
        destruct (I2 v c' d' X) as [A' [B' C']]. split; [exact A'|]. split; [exact B'|]. rewrite RE; [exact C'|]. apply I6. rewrite X. discriminate.
      + intros b X. unfold held in X. cbn [g queue] in X. rewrite app_assoc in X. apply in_app_or in X. destruct X as [X|[X|[]]].
        * apply I3. exact X.
        * subst b. split; assumption.
      + rewrite (accepted_snoc _ _ _ J), written_snoc, app_nil_r, I4, (RE w IC), <- app_assoc. apply f_equal2; [reflexivity|].
        unfold held, contents. cbn [g queue heap]. rewrite app_assoc, !map_app. cbn [map]. rewrite <- C. reflexivity.
      + rewrite app_length. cbn [List.length]. lia.
      + intro v. rewrite called_snoc, app_nil_r, I6. destruct (Nat.eq_dec v w) as [->|N]; [rewrite upd_same, WS; split; discriminate | rewrite upd_other by exact N; reflexivity].
      + intro v. rewrite sent_snoc, in_app_iff, I7. cbn [In]. destruct (Nat.eq_dec v w) as [->|N].
        * rewrite upd_same. split; auto.
        * rewrite upd_other by exact N. split; [intros [X|[X|[]]]; [exact X | congruence] | auto].
      + intro v. rewrite dropped_snoc, app_nil_r, I8. destruct (Nat.eq_dec v w) as [->|N]; [rewrite upd_same, WS; split; discriminate | rewrite upd_other by exact N; reflexivity].
      + rewrite called_snoc, app_nil_r. exact I9.
      + rewrite sent_snoc. apply nodup_snoc; [exact I10|]. rewrite I7, WS. discriminate.
      + rewrite dropped_snoc, app_nil_r. exact I11.
    - (* WDrop *) destruct (ws s w) as [|c d| |] eqn:WS; try discriminate E.
      destruct (negb IsQueueBlocking && negb (List.length (queue s) <? queueLength)%nat && bytes_eqb (nth c (heap s) []) rec); [|discriminate E]. injection E as <-.
      pose proof I as J. destruct I as [I1 I2 I3 I4 I5 I6 I7 I8 I9 I10 I11].
      assert (RE : forall v, In v (called evs) -> record_of (evs ++ [WDrop w rec]) v = record_of evs v) by (intros; apply record_of_app; assumption).
      constructor; cbn [heap callers ws queue g].
      + exact I1.
      + intros v c' d' X. destruct (Nat.eq_dec v w) as [->|N]; [rewrite upd_same in X; discriminate X|]. rewrite upd_other in X by exact N.
        destruct (I2 v c' d' X) as [A' [B' C']]. split; [exact A'|]. split; [exact B'|]. rewrite RE; [exact C'|]. apply I6. rewrite X. discriminate.
      + exact I3.
      + rewrite (accepted_snoc _ _ _ J), written_snoc, !app_nil_r. exact I4.
      + exact I5.
      + intro v. rewrite called_snoc, app_nil_r, I6. destruct (Nat.eq_dec v w) as [->|N]; [rewrite upd_same, WS; split; discriminate | rewrite upd_other by exact N; reflexivity].
      + intro v. rewrite sent_snoc, app_nil_r, I7. destruct (Nat.eq_dec v w) as [->|N]; [rewrite upd_same, WS; split; discriminate | rewrite upd_other by exact N; reflexivity].
      + intro v. rewrite dropped_snoc, in_app_iff, I8. cbn [In]. destruct (Nat.eq_dec v w) as [->|N].
        * rewrite upd_same. split; auto.
        * rewrite upd_other by exact N. split; [intros [X|[X|[]]]; [exact X | congruence] | auto].
      + rewrite called_snoc, app_nil_r. exact I9.
      + rewrite sent_snoc, app_nil_r. exact I10.
      + rewrite dropped_snoc. apply nodup_snoc; [exact I11|]. rewrite I8, WS. discriminate.
    - destruct (g s) eqn:G; try discriminate E. destruct (queue s) as [|b rest] eqn:Q; [discriminate E|]. injection E as <-.
      apply (inv_quiet evs s); try reflexivity; try exact I; unfold held; cbn [g queue]; rewrite ?G, ?Q; cbn [List.length app]; first [lia | reflexivity | solve [auto]].
    - destruct (g s) eqn:G; try discriminate E. destruct (cancelled s) eqn:C; [|discriminate E]. injection E as <-.
      apply (inv_quiet evs s); try reflexivity; try exact I; unfold held; cbn [g queue]; rewrite ?G; first [lia | reflexivity | solve [auto]].
    - destruct (g s) eqn:G; try discriminate E. destruct (queue s) as [|b rest] eqn:Q; [discriminate E|]. injection E as <-.
      apply (inv_quiet evs s); try reflexivity; try exact I; unfold held; cbn [g queue]; rewrite ?G, ?Q; cbn [List.length app]; first [lia | reflexivity | solve [auto]].
    - destruct (g s) eqn:G; try discriminate E. injection E as <-.
      apply (inv_quiet evs s); try reflexivity; try exact I; unfold held; cbn [g queue]; rewrite ?G; first [lia | reflexivity | solve [auto]].
    - destruct (g s) eqn:G; try discriminate E. destruct (queue s) as [|b rest] eqn:Q; [|discriminate E]. injection E as <-.
      apply (inv_quiet evs s); try reflexivity; try exact I; unfold held; cbn [g queue]; rewrite ?G, ?Q; first [reflexivity | solve [auto] | cbn [List.length]; lia].
    - destruct (g s) as [|b| |b|] eqn:G; try discriminate E; (destruct (bytes_eqb (nth b (heap s) []) rec) eqn:BE; [|discriminate E]); injection E as <-; apply bytes_eqb_true in BE;
      (apply (inv_quiet evs s); try reflexivity; try exact I; unfold held, contents; cbn [g queue]; rewrite ?G;
        first [lia | destruct r; cbn [app map]; rewrite BE; reflexivity | intros x X; destruct r; right; exact X]).
    - injection E as <-.
      apply (inv_quiet evs s); try reflexivity; try exact I; unfold held; cbn [g queue]; first [lia | reflexivity | solve [auto]].
    - destruct (g s) eqn:G; try discriminate E. destruct (cancelled s) eqn:C; [|discriminate E]. injection E as <-.
      apply (inv_quiet evs s); try reflexivity; try exact I; unfold held; cbn [g queue]; rewrite ?G; first [lia | reflexivity | solve [auto]].
  Qed.

  Lemma inv_run : forall evs s, run new evs = Some s -> inv evs s.
  Proof.
    induction evs as [|e evs IH] using rev_ind; intros s R.
    - injection R as <-. constructor; cbn [heap callers ws queue g new called sent dropped flat_map].
      + intros b [].
      + discriminate.
      + intros b [].
      + reflexivity.
      + cbn. lia.
      + intro w. split; [intros [] | intro X; destruct (X eq_refl)].
      + intro w. split; [intros [] | discriminate].
      + intro w. split; [intros [] | discriminate].
      + constructor.
      + constructor.
      + constructor.
    - rewrite run_snoc in R. destruct (run new evs) as [s0|] eqn:E0; [|discriminate R]. exact (inv_step _ _ _ _ (IH s0 eq_refl) R).
  Qed.

  (** The order of calls made one after the other is kept. *)
  Lemma subseq_snoc_both : forall (a b : list nat) x, subseq a b -> subseq (a ++ [x]) (b ++ [x]).
  Proof. intros a b x H. induction H; cbn [app]; [apply sub_keep; apply sub_nil | apply sub_keep; assumption | apply sub_skip; assumption]. Qed.
  Lemma subseq_snoc : forall (a b : list nat) x, subseq a b -> subseq a (b ++ [x]).
  Proof. intros a b x H. induction H; cbn [app]; [apply sub_skip; apply sub_nil | apply sub_keep; assumption | apply sub_skip; assumption]. Qed.
  Lemma subseq_last : forall (b a : list nat) x, subseq a (b ++ [x]) -> ~ In x a -> subseq a b.
  Proof.
    induction b as [|y b IH]; intros a x H N; cbn [app] in H.
    - inversion H as [|z a' b' H'|z a' b' H']; subst; [destruct N; left; reflexivity|]. inversion H'; subst. apply sub_nil.
    - inversion H as [|z a' b' H'|z a' b' H']; subst; [apply sub_keep; apply (IH a' x H'); intro X; apply N; right; exact X | apply sub_skip; exact (IH a x H' N)].
  Qed.
  Lemma sequential_prefix : forall evs e, sequential (evs ++ [e]) -> sequential evs.
  Proof. intros evs e H a w buf rec b ->. apply (H a w buf rec (b ++ [e])). rewrite <- app_assoc. reflexivity. Qed.

  Lemma sequential_order : forall evs s, run new evs = Some s -> sequential evs ->
    subseq (sent evs) (called evs) /\
    (forall w c d, ws s w = WCopied c d -> exists l, called evs = l ++ [w]).
  Proof.
    induction evs as [|e evs IH] using rev_ind; intros s R Q.
    - split; [constructor|]. injection R as <-. discriminate.
    - pose proof R as R'. rewrite run_snoc in R. destruct (run new evs) as [s0|] eqn:E0; [|discriminate R].
      destruct (IH s0 eq_refl (sequential_prefix _ _ Q)) as [A B]. pose proof (inv_run _ _ E0) as I. pose proof (inv_run _ _ R') as I'.
      rewrite sent_snoc, called_snoc.
      assert (K : (match e with WCall _ _ _ | WSend _ | WDrop _ _ => False | _ => True end) -> ws s = ws s0).
      { intro X. destruct e as [r|b r|v b r|v|v r| | | | | |r x| |]; try destruct X; cbn [AsyncModel.step] in R.
        - injection R as <-. reflexivity.
        - destruct (inb b (callers s0)); [|discriminate R]. injection R as <-. reflexivity.
        - destruct (g s0); try discriminate R. destruct (queue s0); [discriminate R|]. injection R as <-. reflexivity.
        - destruct (g s0); try discriminate R. destruct (cancelled s0); [|discriminate R]. injection R as <-. reflexivity.
        - destruct (g s0); try discriminate R. destruct (queue s0); [discriminate R|]. injection R as <-. reflexivity.
        - destruct (g s0); try discriminate R. injection R as <-. reflexivity.
        - destruct (g s0); try discriminate R. destruct (queue s0); [|discriminate R]. injection R as <-. reflexivity.
        - destruct (g s0) as [|b| |b|]; try discriminate R; (destruct (bytes_eqb (nth b (heap s0) []) r); [|discriminate R]); injection R as <-; reflexivity.
        - injection R as <-. reflexivity.
        - destruct (g s0); try discriminate R. destruct (cancelled s0); [|discriminate R]. injection R as <-. reflexivity. }
      destruct e as [r|b r|v b r|v|v r| | | | | |r x| |]; rewrite ?app_nil_r; try (rewrite (K Logic.I); split; assumption).
      + split; [apply subseq_snoc; exact A|]. intros w c d W. exists (called evs). f_equal. f_equal.
        destruct (Nat.eq_dec w v) as [->|N]; [reflexivity|]. exfalso.
        cbn [AsyncModel.step] in R. destruct (ws s0 v); try discriminate R. destruct (nth_error (heap s0) b); [|discriminate R].
        destruct (inb b (callers s0) && bytes_eqb b0 r); [|discriminate R]. injection R as <-. cbn [ws] in W. rewrite upd_other in W by exact N.
        assert (IC : In w (called evs)) by (rewrite (i_called _ _ I), W; discriminate).
        destruct (Q evs v b r [] eq_refl w IC) as [X|X]; [rewrite (i_sent _ _ I), W in X | rewrite (i_dropped _ _ I), W in X]; discriminate X.
      + cbn [AsyncModel.step] in R. destruct (ws s0 v) as [|c d| |] eqn:W; try discriminate R.
        destruct (List.length (queue s0) <? queueLength)%nat; [|discriminate R]. injection R as <-. destruct (B v c d W) as [l Bl]. rewrite Bl in *. split.
        * apply subseq_snoc_both. apply (subseq_last l (sent evs) v); [exact A|]. rewrite (i_sent _ _ I), W. discriminate.
        * intros w c' d' X. cbn [ws] in X. destruct (Nat.eq_dec w v) as [->|N]; [rewrite upd_same in X; discriminate X|].
          rewrite upd_other in X by exact N. exact (B w c' d' X).
      + cbn [AsyncModel.step] in R. destruct (ws s0 v) as [|c d| |] eqn:W; try discriminate R.
        destruct (negb IsQueueBlocking && negb (List.length (queue s0) <? queueLength)%nat && bytes_eqb (nth c (heap s0) []) r); [|discriminate R].
        injection R as <-. split; [exact A|].
        intros w c' d' X. cbn [ws] in X. destruct (Nat.eq_dec w v) as [->|N]; [rewrite upd_same in X; discriminate X|].
        rewrite upd_other in X by exact N. exact (B w c' d' X).
  Qed.

  (** While the goroutine is in one of its selects it can hand over everything. *)
  Lemma can_drain : forall q s, queue s = q -> g s = GSelect ->
    exists evs s', (forall e, In e evs -> e = GTake \/ exists r, e = GWrite r WOk) /\ run s evs = Some s' /\ queue s' = [] /\ g s' = GSelect.
  Proof.
    induction q as [|b q IH]; intros s Q G.
    - exists [], s. split; [intros e []|]. auto.
    - set (s2 := mkWriter (heap s) (callers s) q GSelect (ws s) (cancelled s) (closed s)).
      destruct (IH s2 eq_refl eq_refl) as [evs [s' [A [B [C D]]]]].
      exists (GTake :: GWrite (nth b (heap s) []) WOk :: evs), s'.
      split; [intros e [X|[X|X]]; [left; congruence | right; eexists; symmetry; exact X | exact (A e X)]|].
      split; [|split; assumption]. cbn [AsyncModel.run AsyncModel.step]. rewrite G, Q. cbn [heap g]. rewrite bytes_eqb_refl. exact B.
  Qed.

  Lemma over_stays : forall e s s', step s e = Some s' -> g s = GOver -> g s' = GOver /\ (forall r x, e <> GWrite r x).
  Proof.
    intros e s s' E G. destruct e as [r|b r|v b r|v|v r| | | | | |r x| |]; cbn [AsyncModel.step] in E; rewrite ?G in E; try discriminate E.
    - injection E as <-. split; [first [exact G | reflexivity] | discriminate].
    - destruct (inb b (callers s)); [|discriminate E]. injection E as <-. split; [first [exact G | reflexivity] | discriminate].
    - destruct (ws s v); try discriminate E. destruct (nth_error (heap s) b); [|discriminate E]. destruct (inb b (callers s) && bytes_eqb b0 r); [|discriminate E].
      injection E as <-. split; [first [exact G | reflexivity] | discriminate].
    - destruct (ws s v); try discriminate E. destruct (List.length (queue s) <? queueLength)%nat; [|discriminate E]. injection E as <-. split; [first [exact G | reflexivity] | discriminate].
    - destruct (ws s v); try discriminate E. destruct (negb IsQueueBlocking && negb (List.length (queue s) <? queueLength)%nat && bytes_eqb (nth caller (heap s) []) r); [|discriminate E].
      injection E as <-. split; [first [exact G | reflexivity] | discriminate].
    - injection E as <-. split; [first [exact G | reflexivity] | discriminate].
    - destruct (cancelled s); [|discriminate E]. injection E as <-. split; [reflexivity | discriminate].
  Qed.

  (** A buffer that no caller owns is never changed. *)
  Lemma private_step : forall b e s s', step s e = Some s' -> (b < List.length (heap s))%nat -> ~ In b (callers s) ->
    (b < List.length (heap s'))%nat /\ ~ In b (callers s') /\ nth b (heap s') [] = nth b (heap s) [].
  Proof.
    intros b e s s' E L N. destruct e as [r|c r|v c r|v|v r| | | | | |r x| |]; cbn [AsyncModel.step] in E.
    - injection E as <-. cbn [heap callers]. rewrite app_length, app_nth1 by exact L. cbn [In].
      split; [lia|]. split; [intros [X|X]; [lia | exact (N X)] | reflexivity].
    - destruct (inb c (callers s)) eqn:IB; [|discriminate E]. injection E as <-. apply inb_true in IB. cbn [heap callers].
      rewrite put_length. split; [exact L|]. split; [exact N|]. apply put_other. congruence.
    - destruct (ws s v); try discriminate E. destruct (nth_error (heap s) c); [|discriminate E]. destruct (inb c (callers s) && bytes_eqb b0 r); [|discriminate E].
      injection E as <-. cbn [heap callers]. rewrite app_length, app_nth1 by exact L. split; [lia|]. split; [exact N | reflexivity].
    - destruct (ws s v); try discriminate E. destruct (List.length (queue s) <? queueLength)%nat; [|discriminate E]. injection E as <-. auto.
    - destruct (ws s v); try discriminate E. destruct (negb IsQueueBlocking && negb (List.length (queue s) <? queueLength)%nat && bytes_eqb (nth caller (heap s) []) r); [|discriminate E].
      injection E as <-. auto.
    - destruct (g s); try discriminate E. destruct (queue s); [discriminate E|]. injection E as <-. auto.
    - destruct (g s); try discriminate E. destruct (cancelled s); [|discriminate E]. injection E as <-. auto.
    - destruct (g s); try discriminate E. destruct (queue s); [discriminate E|]. injection E as <-. auto.
    - destruct (g s); try discriminate E. injection E as <-. auto.
    - destruct (g s); try discriminate E. destruct (queue s); [|discriminate E]. injection E as <-. auto.
    - destruct (g s) as [|d| |d|]; try discriminate E; (destruct (bytes_eqb (nth d (heap s) []) r); [|discriminate E]); injection E as <-; auto.
    - injection E as <-. auto.
    - destruct (g s); try discriminate E. destruct (cancelled s); [|discriminate E]. injection E as <-. auto.
  Qed.
  Lemma private_run : forall evs b s s', run s evs = Some s' -> (b < List.length (heap s))%nat -> ~ In b (callers s) ->
    nth b (heap s') [] = nth b (heap s) [].
  Proof.
    induction evs as [|e evs IH]; intros b s s' R L N; cbn [AsyncModel.run] in R; [injection R as <-; reflexivity|].
    destruct (step s e) as [s1|] eqn:E; [|discriminate R]. destruct (private_step b e s s1 E L N) as [A [B C]].
    rewrite (IH b s1 s' R A B). exact C.
  Qed.

  (** Why the goroutine is over. *)
  Lemma over_why : forall evs s, run new evs = Some s -> g s = GOver ->
    In GTimer evs \/ (exists r, In (GWrite r WPanic) evs) \/ (exists a b, evs = a ++ GEmpty :: b /\ accepted a = written a /\ In CloseCall a).
  Proof.
    assert (CC : forall evs s, run new evs = Some s -> (cancelled s = true \/ g s = GLast \/ (exists b, g s = GLastWriting b)) -> In CloseCall evs).
    { induction evs as [|e evs IH] using rev_ind; intros s R H.
      - injection R as <-. destruct H as [H|[H|[b H]]]; discriminate H.
      - rewrite run_snoc in R. destruct (run new evs) as [s0|]; [|discriminate R]. specialize (IH s0 eq_refl). rewrite in_app_iff.
        destruct e as [r|b r|v b r|v|v r| | | | | |r x| |]; cbn [AsyncModel.step] in R.
        + injection R as <-. left. apply IH. exact H.
        + destruct (inb b (callers s0)); [|discriminate R]. injection R as <-. left. apply IH. exact H.
        + destruct (ws s0 v); try discriminate R. destruct (nth_error (heap s0) b); [|discriminate R]. destruct (inb b (callers s0) && bytes_eqb b0 r); [|discriminate R].
          injection R as <-. left. apply IH. exact H.
        + destruct (ws s0 v); try discriminate R. destruct (List.length (queue s0) <? queueLength)%nat; [|discriminate R]. injection R as <-. left. apply IH. exact H.
        + destruct (ws s0 v); try discriminate R. destruct (negb IsQueueBlocking && negb (List.length (queue s0) <? queueLength)%nat && bytes_eqb (nth caller (heap s0) []) r); [|discriminate R].
          injection R as <-. left. apply IH. exact H.
        + destruct (g s0) eqn:G; try discriminate R. destruct (queue s0); [discriminate R|]. injection R as <-. left. apply IH. cbn [g cancelled] in H.
          destruct H as [H|[H|[b' H]]]; [left; exact H | discriminate H | discriminate H].
        + destruct (g s0); try discriminate R. destruct (cancelled s0); [|discriminate R]. left. apply IH. left; reflexivity.
        + destruct (g s0) eqn:G; try discriminate R. destruct (queue s0); [discriminate R|]. left. apply IH. right; left; reflexivity.
        + destruct (g s0) eqn:G; try discriminate R. left. apply IH. right; left; reflexivity.
        + destruct (g s0) eqn:G; try discriminate R. left. apply IH. right; left; reflexivity.
        + destruct (g s0) as [|b| |b|] eqn:G; try discriminate R; (destruct (bytes_eqb (nth b (heap s0) []) r); [|discriminate R]); injection R as <-; left; apply IH.
          * cbn [g cancelled] in H. destruct H as [H|[H|[b' H]]]; [left; exact H | destruct x; discriminate H | destruct x; discriminate H].
          * right; right. exists b. reflexivity.
        + right; left; reflexivity.
        + destruct (g s0) eqn:G; try discriminate R. destruct (cancelled s0); [|discriminate R]. left. apply IH. left; reflexivity. }
    induction evs as [|e evs IH] using rev_ind; intros s R H; [injection R as <-; discriminate H|].
    rewrite run_snoc in R. destruct (run new evs) as [s0|] eqn:E0; [|discriminate R]. specialize (IH s0 eq_refl).
    assert (W : g s0 = GOver -> In GTimer (evs ++ [e]) \/ (exists r, In (GWrite r WPanic) (evs ++ [e])) \/
      (exists a b, evs ++ [e] = a ++ GEmpty :: b /\ accepted a = written a /\ In CloseCall a)).
    { intro G. destruct (IH G) as [A|[[r A]|[a [b [A B]]]]].
      - left. apply in_or_app; left; exact A.
      - right; left. exists r. apply in_or_app; left; exact A.
      - right; right. exists a, (b ++ [e]). split; [rewrite A, <- app_assoc; reflexivity | exact B]. }
    destruct e as [r|b r|v b r|v|v r| | | | | |r x| |]; cbn [AsyncModel.step] in R.
    - injection R as <-. apply W. exact H.
    - destruct (inb b (callers s0)); [|discriminate R]. injection R as <-. apply W. exact H.
    - destruct (ws s0 v); try discriminate R. destruct (nth_error (heap s0) b); [|discriminate R]. destruct (inb b (callers s0) && bytes_eqb b0 r); [|discriminate R].
      injection R as <-. apply W. exact H.
    - destruct (ws s0 v); try discriminate R. destruct (List.length (queue s0) <? queueLength)%nat; [|discriminate R]. injection R as <-. apply W. exact H.
    - destruct (ws s0 v); try discriminate R. destruct (negb IsQueueBlocking && negb (List.length (queue s0) <? queueLength)%nat && bytes_eqb (nth caller (heap s0) []) r); [|discriminate R].
      injection R as <-. apply W. exact H.
    - destruct (g s0) eqn:G; try discriminate R. destruct (queue s0); [discriminate R|]. injection R as <-. discriminate H.
    - destruct (g s0) eqn:G; try discriminate R. destruct (cancelled s0); [|discriminate R]. injection R as <-. discriminate H.
    - destruct (g s0) eqn:G; try discriminate R. destruct (queue s0); [discriminate R|]. injection R as <-. discriminate H.
    - left. apply in_or_app; right; left; reflexivity.
    - destruct (g s0) eqn:G; try discriminate R. destruct (queue s0) eqn:Q; [|discriminate R]. right; right. exists evs, []. split; [reflexivity|].
      split; [|apply (CC evs s0 E0); right; left; exact G].
      rewrite (i_flow _ _ (inv_run _ _ E0)). unfold held. rewrite G, Q. apply app_nil_r.
    - destruct (g s0) as [|b| |b|] eqn:G; try discriminate R; (destruct (bytes_eqb (nth b (heap s0) []) r); [|discriminate R]); injection R as <-;
      (destruct x; [discriminate H | discriminate H|]; right; left; exists r; apply in_or_app; right; left; reflexivity).
    - injection R as <-. apply W. exact H.
    - destruct (g s0) eqn:G; try discriminate R. apply W. reflexivity.
  Qed.
End Proofs.
