(** Claims C27, C28 and C51: the async writers. *)
From Verif Require Import Base AsyncModel AsyncSpec AsyncProofs.
Require Import Permutation.

Section Claims.
  Variable IsQueueBlocking : bool.
  Variable queueLength : nat.
  Notation run := (run IsQueueBlocking queueLength).
  Notation step := (step IsQueueBlocking queueLength).

  (** C27 (and C28): the records handed to the underlying writer are the first of the records accepted, each with the
      bytes the caller's buffer held when Write was called, whatever the callers do with their buffers. *)
  Theorem C27_in_order : forall evs s, run new evs = Some s -> prefix (written evs) (accepted evs).
  Proof. intros evs s R. exists (contents s (held s)). exact (i_flow _ _ _ (inv_run _ _ _ _ R)). Qed.
  (** What is accepted and not handed over is in the queue or in the hands of the goroutine. *)
  Theorem C27_all_delivered : forall evs s, run new evs = Some s -> queue s = [] -> (forall b, g s <> GWriting b /\ g s <> GLastWriting b) ->
    written evs = accepted evs.
  Proof.
    intros evs s R Q G. rewrite (i_flow _ _ _ (inv_run _ _ _ _ R)). unfold held. rewrite Q. destruct (g s) as [|b| |b|];
      try (symmetry; apply app_nil_r); destruct (G b) as [A B]; congruence.
  Qed.
  (** As long as the goroutine is in its loop it can hand over everything, with no help from anybody. *)
  Theorem C27_can_drain : forall evs s, run new evs = Some s -> g s = GSelect ->
    exists evs' s', (forall e, In e evs' -> e = GTake \/ exists r, e = GWrite r WOk) /\ run new (evs ++ evs') = Some s' /\
      written (evs ++ evs') = accepted evs.
  Proof.
    intros evs s R G. destruct (can_drain IsQueueBlocking queueLength (queue s) s eq_refl G) as [evs' [s' [A [B [C D]]]]].
    exists evs', s'. split; [exact A|]. assert (R' : run new (evs ++ evs') = Some s') by (rewrite run_app, R; exact B). split; [exact R'|].
    rewrite (C27_all_delivered _ _ R' C) by (intro b; rewrite D; split; discriminate).
    assert (S0 : sent evs' = []).
    { clear - A. induction evs' as [|e l IH]; [reflexivity|]. unfold sent. cbn [flat_map]. fold (sent l).
      rewrite IH by (intros x X; apply A; right; exact X). destruct (A e (or_introl eq_refl)) as [->|[r ->]]; reflexivity. }
    unfold accepted. unfold sent at 1. rewrite flat_map_app. fold (sent evs) (sent evs'). rewrite S0, app_nil_r.
    apply map_ext_in. intros w W. apply record_of_app. pose proof (inv_run _ _ _ _ R) as I. apply (i_called _ _ _ I). apply (i_sent _ _ _ I) in W. rewrite W. discriminate.
  Qed.
  (** A sink may keep a buffer it was given: nobody changes it afterwards. *)
  Theorem C29_async_private : forall evs s b more s', run new evs = Some s -> g s = GWriting b \/ g s = GLastWriting b ->
    run s more = Some s' -> nth b (heap s') [] = nth b (heap s) [].
  Proof.
    intros evs s b more s' R G M. assert (H : In b (held s)) by (unfold held; destruct G as [-> | ->]; left; reflexivity).
    destruct (i_held _ _ _ (inv_run _ _ _ _ R) b H) as [A B]. exact (private_run _ _ _ _ _ _ M A B).
  Qed.
  (** A blocking Write does not drop, and waits only while the queue is full. *)
  Theorem C27_no_drop : forall evs s, IsQueueBlocking = true -> run new evs = Some s -> dropped evs = [].
  Proof.
    intros evs s B. revert s. induction evs as [|e evs IH] using rev_ind; intros s R; [reflexivity|].
    rewrite run_snoc in R. destruct (run new evs) as [s0|] eqn:E0; [|discriminate R]. rewrite dropped_snoc, (IH s0 eq_refl).
    destruct e; try reflexivity. cbn [AsyncModel.step] in R. rewrite B in R. destruct (ws s0 w); discriminate R.
  Qed.
  Theorem C27_waits_only_when_full : forall evs s w c d, run new evs = Some s -> ws s w = WCopied c d ->
    (step s (WSend w) = None <-> List.length (queue s) = queueLength).
  Proof.
    intros evs s w c d R W. pose proof (i_room _ _ _ (inv_run _ _ _ _ R)) as L. cbn [AsyncModel.step]. rewrite W.
    destruct (Nat.ltb_spec (List.length (queue s)) queueLength); split; intro X; first [lia | reflexivity | discriminate X].
  Qed.

  (** C28: every call of Write that is over has sent its record or dropped it, once and not both. *)
  Theorem C28_accounted : forall evs s, run new evs = Some s -> (forall w c d, ws s w <> WCopied c d) ->
    Permutation (called evs) (sent evs ++ dropped evs).
  Proof.
    intros evs s R O. destruct (inv_run _ _ _ _ R) as [_ _ _ _ _ I6 I7 I8 I9 I10 I11]. apply NoDup_Permutation; [exact I9| |].
    - clear I9. revert I10. assert (D : forall w, In w (sent evs) -> ~ In w (dropped evs)) by (intros w X Y; rewrite I7 in X; rewrite I8 in Y; congruence).
      revert D. generalize (sent evs) as a. clear - I11. induction a as [|x a IH]; intros D N; cbn [app]; [exact I11|].
      inversion N as [|p q N1 N2]; subst. constructor.
      + rewrite in_app_iff. intros [X|X]; [exact (N1 X) | exact (D x (or_introl eq_refl) X)].
      + apply IH; [|exact N2]. intros w X. apply D. right; exact X.
    - intro w. rewrite I6, in_app_iff, I7, I8. destruct (ws s w) as [|c d| |] eqn:W; try (destruct (O w c d); exact W); split; intro X; auto; try discriminate; destruct X; congruence.
  Qed.
  (** A record is dropped only when the queue is full. *)
  Theorem C28_dropped_when_full : forall a w rec b s, run new (a ++ WDrop w rec :: b) = Some s ->
    exists s0, run new a = Some s0 /\ List.length (queue s0) = queueLength /\ IsQueueBlocking = false.
  Proof.
    intros a w rec b s R. rewrite run_app in R. destruct (run new a) as [s0|] eqn:E0; [|discriminate R]. exists s0. split; [reflexivity|].
    cbn [AsyncModel.run AsyncModel.step] in R. pose proof (i_room _ _ _ (inv_run _ _ _ _ E0)) as L.
    destruct (ws s0 w); try discriminate R. destruct IsQueueBlocking; [discriminate R|]. split; [|reflexivity].
    destruct (Nat.ltb_spec (List.length (queue s0)) queueLength) as [X|X]; [discriminate R|]. lia.
  Qed.
  (** Calls made one after the other are sent in the order they were made. *)
  Theorem C28_call_order : forall evs s, run new evs = Some s -> sequential evs -> subseq (sent evs) (called evs).
  Proof. intros evs s R Q. exact (proj1 (sequential_order _ _ _ _ R Q)). Qed.
  (** A non-blocking Write never waits. *)
  Theorem C28_never_waits : forall evs s w c d, IsQueueBlocking = false -> run new evs = Some s -> ws s w = WCopied c d ->
    step s (WSend w) <> None \/ step s (WDrop w (nth c (heap s) [])) <> None.
  Proof.
    intros evs s w c d B R W. cbn [AsyncModel.step]. rewrite W, B. destruct (List.length (queue s) <? queueLength)%nat; [left; discriminate|].
    right. cbn [negb andb]. rewrite bytes_eqb_refl. discriminate.
  Qed.

  (** C51, what holds: Close returns after the goroutine is over, the underlying writer gets nothing after that; and
      unless a write panicked or the second was over, everything accepted before some moment after the call of Close
      was handed over before. *)
  Theorem C51_close_partial : forall evs s, run new evs = Some s -> g s = GOver ->
    In GTimer evs \/ (exists r, In (GWrite r WPanic) evs) \/
    (exists a b, evs = a ++ GEmpty :: b /\ accepted a = written a /\ In CloseCall a).
  Proof. exact (over_why IsQueueBlocking queueLength). Qed.
  Theorem C51_nothing_after_partial : forall evs s more s', run new evs = Some s -> closed s = true -> run s more = Some s' -> written more = [].
  Proof.
    assert (CO : forall evs s, run new evs = Some s -> closed s = true -> g s = GOver).
    { induction evs as [|e evs IH] using rev_ind; intros s R C; [injection R as <-; discriminate C|].
      rewrite run_snoc in R. destruct (run new evs) as [s0|] eqn:E0; [|discriminate R]. specialize (IH s0 eq_refl).
      destruct (closed s0) eqn:C0.
      - exact (proj1 (over_stays _ _ _ _ _ R (IH eq_refl))).
      - clear IH. destruct e as [r|b r|v b r|v|v r| | | | | |r x| |]; cbn [AsyncModel.step] in R;
          repeat match goal with
          | R : match ?x with _ => _ end = Some _ |- _ => destruct x eqn:?; try discriminate R
          end; injection R as <-; cbn [closed g] in *; congruence. }
    intros evs s more. revert s evs. induction more as [|e more IH]; intros s evs s' R C M; [reflexivity|].
    cbn [AsyncModel.run] in M. destruct (step s e) as [s1|] eqn:E; [|discriminate M].
    destruct (over_stays _ _ _ _ _ E (CO evs s R C)) as [_ NW]. unfold written. cbn [flat_map]. fold (written more).
    assert (R1 : run new (evs ++ [e]) = Some s1) by (rewrite run_snoc, R; exact E).
    assert (C1 : closed s1 = true).
    { clear - E C. destruct e as [r|b r|v b r|v|v r| | | | | |r x| |]; cbn [AsyncModel.step] in E;
        repeat match goal with
        | R : match ?x with _ => _ end = Some _ |- _ => destruct x eqn:?; try discriminate R
        end; injection E as <-; cbn [closed]; first [exact C | reflexivity]. }
    rewrite (IH s1 (evs ++ [e]) s' R1 C1 M), app_nil_r. destruct e; try reflexivity. destruct (NW rec r eq_refl).
  Qed.
End Claims.

(** C51, the full claim: when Close has returned, every record accepted before Close was called has been handed over. *)
Definition C51_full : Prop := forall blocking n a b s, run blocking n new (a ++ CloseCall :: b) = Some s -> closed s = true -> prefix (accepted a) (written (a ++ CloseCall :: b)).
(** After one second the rest is thrown away; a panic of the underlying writer has the same effect. *)
Theorem C51_timeout_refuted : exists a b s, run true 4 new (a ++ CloseCall :: b) = Some s /\ closed s = true /\
  accepted a = [bs "one"; bs "two"] /\ written (a ++ CloseCall :: b) = [bs "one"].
Proof.
  exists [Alloc (bs "one"); WCall 0 0 (bs "one"); WSend 0; Change 0 (bs "two"); WCall 1 0 (bs "two"); WSend 1],
    [GDone; GTakeLast; GWrite (bs "one") WOk; GTimer; CloseEnd]. eexists. split; [vm_compute; reflexivity|]. repeat split.
Qed.
Theorem C51_panic_refuted : exists a b s, run true 4 new (a ++ CloseCall :: b) = Some s /\ closed s = true /\
  accepted a = [bs "one"; bs "two"] /\ written (a ++ CloseCall :: b) = [bs "one"].
Proof.
  exists [Alloc (bs "one"); WCall 0 0 (bs "one"); WSend 0; Change 0 (bs "two"); WCall 1 0 (bs "two"); WSend 1],
    [GTake; GWrite (bs "one") WPanic; CloseEnd]. eexists. split; [vm_compute; reflexivity|]. repeat split.
Qed.
Theorem C51_full_refuted : ~ C51_full.
Proof.
  intro H. destruct C51_timeout_refuted as [a [b [s [R [C [A W]]]]]]. destruct (H true 4%nat a b s R C) as [r E].
  rewrite A, W in E. discriminate E.
Qed.
(** A record written after the goroutine is over is accepted and never handed over. *)
Theorem C51_after_close_refuted : forall blocking n evs s w c d s', run blocking n new evs = Some s -> closed s = true ->
  ws s w = WCopied c d -> step blocking n s (WSend w) = Some s' ->
  forall more s'', run blocking n s' more = Some s'' -> written more = [].
Proof.
  intros blocking n evs s w c d s' R C W E more s'' M.
  assert (X : written (WSend w :: more) = []).
  { apply (C51_nothing_after_partial blocking n evs s (WSend w :: more) s'' R C). cbn [run]. rewrite E. exact M. }
  exact X.
Qed.

(** Told by the default onMessageDropped, called n times: 1, 1001, 2001, ... up to n. *)
Theorem C28_default_dropped : forall n c, 0 <= c ->
  defaultDrops c n = filter (fun x => x mod 1000 =? 1) (map (fun i => c + 1 + Z.of_nat i) (seq 0 n)).
Proof.
  induction n as [|n IH]; intros c C; [reflexivity|]. cbn [defaultDrops defaultDropped seq map filter]. rewrite Z.add_0_r.
  rewrite IH by lia. rewrite <- seq_shift, map_map.
  replace (map (fun x => c + 1 + Z.of_nat (S x)) (seq 0 n)) with (map (fun i => c + 1 + 1 + Z.of_nat i) (seq 0 n)) by (apply map_ext; intro; lia).
  destruct ((c + 1) mod 1000 =? 1); reflexivity.
Qed.
Theorem C28_queue_length : forall n, queueLengthOf n = 0 -> False.
Proof. intros n. unfold queueLengthOf. destruct (Z.eqb_spec n 0); [discriminate | congruence]. Qed.

Print Assumptions C27_in_order.
Print Assumptions C27_all_delivered.
Print Assumptions C27_can_drain.
Print Assumptions C27_no_drop.
Print Assumptions C27_waits_only_when_full.
Print Assumptions C29_async_private.
Print Assumptions C28_accounted.
Print Assumptions C28_dropped_when_full.
Print Assumptions C28_call_order.
Print Assumptions C28_never_waits.
Print Assumptions C28_default_dropped.
Print Assumptions C28_queue_length.
Print Assumptions C51_close_partial.
Print Assumptions C51_nothing_after_partial.
Print Assumptions C51_timeout_refuted.
Print Assumptions C51_panic_refuted.
Print Assumptions C51_full_refuted.
Print Assumptions C51_after_close_refuted.

(** * Examples *)
(** Two callers share a queue of two records; the first reuses its buffer at once; the third record finds the
    queue full and is dropped; an error of the underlying writer changes nothing. *)
Definition ex_events : list event :=
  [Alloc (bs "one"); Alloc (bs "x"); WCall 0 0 (bs "one"); WCall 1 1 (bs "x"); WSend 1; WSend 0; Change 0 (bs "two"); WCall 2 0 (bs "two"); WDrop 2 (bs "two");
   GTake; GWrite (bs "x") WError; GTake; Change 0 (bs "three"); GWrite (bs "one") WOk].
Example C27_example : exists s, run false 2 new ex_events = Some s /\ g s = GSelect /\ queue s = [] /\ written ex_events = [bs "x"; bs "one"] /\
  accepted ex_events = [bs "x"; bs "one"] /\ dropped ex_events = [2%nat] /\ called ex_events = [0; 1; 2]%nat.
Proof. eexists. split; [vm_compute; reflexivity|]. repeat split. Qed.
Example C27_example_holds : exists s, run false 2 new (firstn 13 ex_events) = Some s /\ g s = GWriting 2%nat /\ nth 2 (heap s) [] = bs "one".
Proof. eexists. split; [vm_compute; reflexivity|]. repeat split. Qed.
Example C28_example_full : exists s, run false 2 new (firstn 8 ex_events) = Some s /\ ws s 2 = WCopied 0 4 /\ List.length (queue s) = 2%nat /\ step false 2 s (WSend 2) = None.
Proof. eexists. split; [vm_compute; reflexivity|]. repeat split. Qed.
Example C28_example_order : exists s, run false 1 new [Alloc (bs "a"); WCall 5 0 (bs "a"); WSend 5; WCall 3 0 (bs "a"); WDrop 3 (bs "a"); GTake; WCall 4 0 (bs "a"); WSend 4] = Some s /\
  sequential [Alloc (bs "a"); WCall 5 0 (bs "a"); WSend 5; WCall 3 0 (bs "a"); WDrop 3 (bs "a"); GTake; WCall 4 0 (bs "a"); WSend 4].
Proof.
  eexists. split; [vm_compute; reflexivity|]. intros a w buf rec b E v I.
  destruct a as [|x1 a]; [discriminate E|]; injection E as <- E.
  destruct a as [|x2 a]; [destruct I|]; injection E as <- E.
  destruct a as [|x3 a]; [discriminate E|]; injection E as <- E.
  destruct a as [|x4 a]; [destruct I as [<-|[]]; left; left; reflexivity|]; injection E as <- E.
  destruct a as [|x5 a]; [discriminate E|]; injection E as <- E.
  destruct a as [|x6 a]; [discriminate E|]; injection E as <- E.
  destruct a as [|x7 a]; [destruct I as [<-|[<-|[]]]; [left; left; reflexivity | right; left; reflexivity]|]; injection E as <- E.
  destruct a as [|x8 a]; [discriminate E|]; injection E as <- E. destruct a; discriminate E.
Qed.
Example C51_example : exists s, run true 2 new [Alloc (bs "a"); WCall 0 0 (bs "a"); WSend 0; CloseCall; GDone; GTakeLast; GWrite (bs "a") WOk; GEmpty; CloseEnd; WCall 1 0 (bs "a")] = Some s /\
  closed s = true /\ g s = GOver /\ ws s 1 = WCopied 0 2 /\ step true 2 s (WSend 1) <> None.
Proof. eexists. split; [vm_compute; reflexivity|]. repeat split. discriminate. Qed.
Example C28_default_example : defaultDrops 0 2002 = [1; 1001; 2001].
Proof. vm_compute. reflexivity. Qed.
