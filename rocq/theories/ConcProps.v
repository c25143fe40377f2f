(** Claims C25 and C26. *)
From Verif Require Import Base ConcModel ConcSpec ConcProofs.

(** C25: a call of StopAndWait that returns without its context being done made, after it was called, a check at
    a moment when every handler started so far had ended (returned or panicked) and left; the executor's context is
    cancelled. *)
Theorem C25_stop_and_wait : forall evs s w, eruns NewUnboundedExecutor evs = Some s -> waiters s w = AllDone ->
  cancelled s = true /\ exists a b, evs = a ++ ECheck w :: b /\ In (EStopAndWait w) a /\ all_over a.
Proof. intros evs s w R W. pose proof (waiter_inv evs s w R) as H. rewrite W in H. exact H. Qed.
(** It gives up only when its context is done. *)
Theorem C25_gives_up : forall evs s w, eruns NewUnboundedExecutor evs = Some s -> waiters s w = GaveUp -> In (EDone w) evs.
Proof. intros evs s w R W. pose proof (waiter_inv evs s w R) as H. rewrite W in H. exact H. Qed.
(** A check returns exactly when everything started is over: one handler that goes on keeps it waiting, a panic does not. *)
Theorem C25_check_exact : forall evs s w, eruns NewUnboundedExecutor evs = Some s -> waiters s w = Checking ->
  exists s', eruns NewUnboundedExecutor (evs ++ [ECheck w]) = Some s' /\
    ((waiters s' w = AllDone /\ all_over evs) \/ (waiters s' w = Waiting /\ ~ all_over evs)).
Proof.
  intros evs s w R W. rewrite eruns_snoc, R. cbn [estep]. rewrite W. eexists. split; [reflexivity|].
  cbn [waiters]. unfold set_waiter. rewrite Z.eqb_refl. pose proof (check_iff evs s R) as C.
  destruct (checkGoroutines (activeGoroutines s)); [left; split; [reflexivity | apply C; reflexivity]|].
  right. split; [reflexivity|]. intro A. apply C in A. discriminate A.
Qed.
(** Exactly the panics other than StopSignal are logged, in the order they happen. *)
Theorem C25_panics_logged : forall evs s, eruns NewUnboundedExecutor evs = Some s ->
  panicsLogged s = flat_map (fun e => match e with EEnd _ (PanicOther v) => [v] | _ => [] end) evs.
Proof.
  induction evs as [|e evs IH] using rev_ind; intros s R; [injection R as <-; reflexivity|].
  rewrite eruns_snoc in R. destruct (eruns NewUnboundedExecutor evs) as [s0|]; [|discriminate R]. specialize (IH s0 eq_refl).
  rewrite flat_map_app. cbn [flat_map]. rewrite app_nil_r, <- IH. destruct e as [loc|i how|i| |w|w|w|w]; cbn [estep] in R; rewrite ?app_nil_r.
  - injection R as <-. reflexivity.
  - destruct (nth_error (goroutines s0) i) as [[l p]|]; [|discriminate R]. destruct p; try discriminate R. injection R as <-.
    destruct how; cbn [panicsLogged]; rewrite ?app_nil_r; reflexivity.
  - destruct (nth_error (goroutines s0) i) as [[l p]|]; [|discriminate R]. destruct p; try discriminate R. injection R as <-. reflexivity.
  - injection R as <-. reflexivity.
  - destruct (waiters s0 w); try discriminate R. injection R as <-. reflexivity.
  - destruct (waiters s0 w); try discriminate R. injection R as <-. reflexivity.
  - destruct (waiters s0 w); try discriminate R. injection R as <-. reflexivity.
  - destruct (waiters s0 w); try discriminate R. injection R as <-. reflexivity.
Qed.
(** The executor's context is cancelled exactly from the first Stop or StopAndWait on. *)
Theorem C25_cancelled : forall evs s, eruns NewUnboundedExecutor evs = Some s ->
  (cancelled s = true <-> In EStop evs \/ exists w, In (EStopAndWait w) evs).
Proof.
  induction evs as [|e evs IH] using rev_ind; intros s R.
  { injection R as <-. split; [discriminate|]. intros [[]|[w []]]. }
  rewrite eruns_snoc in R. destruct (eruns NewUnboundedExecutor evs) as [s0|]; [|discriminate R]. specialize (IH s0 eq_refl).
  assert (K : forall x, In x (evs ++ [e]) <-> In x evs \/ e = x) by (intro x; rewrite in_app_iff; cbn [In]; tauto).
  setoid_rewrite K.
  destruct e as [loc|i how|i| |w|w|w|w]; cbn [estep] in R.
  - injection R as <-. cbn [cancelled]. rewrite IH. clear. firstorder congruence.
  - destruct (nth_error (goroutines s0) i) as [[l p]|]; [|discriminate R]. destruct p; try discriminate R. injection R as <-. cbn [cancelled]. rewrite IH. clear. firstorder congruence.
  - destruct (nth_error (goroutines s0) i) as [[l p]|]; [|discriminate R]. destruct p; try discriminate R. injection R as <-. cbn [cancelled]. rewrite IH. clear. firstorder congruence.
  - injection R as <-. cbn [cancelled]. tauto.
  - destruct (waiters s0 w); try discriminate R. injection R as <-. cbn [cancelled]. split; [|reflexivity]. intros _. right. exists w. now right.
  - destruct (waiters s0 w); try discriminate R. injection R as <-. cbn [cancelled]. rewrite IH. clear. firstorder congruence.
  - destruct (waiters s0 w); try discriminate R. injection R as <-. cbn [cancelled]. rewrite IH. clear. firstorder congruence.
  - destruct (waiters s0 w); try discriminate R. injection R as <-. cbn [cancelled]. rewrite IH. clear. firstorder congruence.
Qed.
Example C25_cancelled_example : exists s s', eruns NewUnboundedExecutor [EGo 7; EEnd 0 Returned] = Some s /\ cancelled s = false /\
  eruns NewUnboundedExecutor [EGo 7; EStop; EEnd 0 Returned] = Some s' /\ cancelled s' = true.
Proof. do 2 eexists. repeat split; vm_compute; reflexivity. Qed.
Print Assumptions C25_cancelled.
(** A goroutine can end and leave whatever the others do: no step waits for another goroutine. *)
Theorem C25_can_leave : forall evs s i loc, eruns NewUnboundedExecutor evs = Some s ->
  (nth_error (goroutines s) i = Some (loc, Running) -> forall how, exists s', estep s (EEnd i how) = Some s' /\ nth_error (goroutines s') i = Some (loc, Leaving)) /\
  (nth_error (goroutines s) i = Some (loc, Leaving) -> exists s', estep s (ELeave i) = Some s' /\ nth_error (goroutines s') i = Some (loc, Done)).
Proof.
  intros evs s i loc R. split; intros E; [intro how|]; cbn [estep]; rewrite E; eexists; (split; [reflexivity|]);
    cbn [goroutines]; apply set_nth_same; apply nth_error_Some; rewrite E; discriminate.
Qed.
Print Assumptions C25_stop_and_wait.
Print Assumptions C25_gives_up.
Print Assumptions C25_check_exact.
Print Assumptions C25_panics_logged.
Print Assumptions C25_can_leave.

(** Three goroutines from two places, one started by another one; two panic; the first check finds one still leaving. *)
Definition ex_events : list eevent :=
  [EGo 7; EGo 8; EStopAndWait 1; EGo 7; EEnd 0 Returned; ELeave 0; EEnd 1 (PanicOther 5); EEnd 2 PanicStop; ELeave 2;
   ETimer 1; ECheck 1; ELeave 1; ETimer 1; ECheck 1; EGo 9].
Example C25_example : exists s, eruns NewUnboundedExecutor ex_events = Some s /\ waiters s 1 = AllDone /\ panicsLogged s = [5] /\
  activeGoroutines s = [(7, 0); (8, 0); (9, 1)].
Proof. eexists. split; [vm_compute; reflexivity|]. repeat split. Qed.
Example C25_example_check : exists s, eruns NewUnboundedExecutor (firstn 10 ex_events) = Some s /\ waiters s 1 = Checking /\ ~ all_over (firstn 10 ex_events).
Proof.
  eexists. split; [vm_compute; reflexivity|]. split; [reflexivity|]. intro A. destruct (A 1%nat) as [_ B]; [unfold started; cbn; lia|].
  cbn in B. repeat (destruct B as [B|B]; [discriminate B|]). exact B.
Qed.
Example C25_example_gives_up : exists s, eruns NewUnboundedExecutor [EGo 7; EStopAndWait 1; EDone 1] = Some s /\ waiters s 1 = GaveUp.
Proof. eexists. split; [vm_compute; reflexivity|]. repeat split. Qed.
Example C25_example_leave : exists s, eruns NewUnboundedExecutor [EGo 7; EGo 8; EEnd 1 Returned] = Some s /\
  nth_error (goroutines s) 0 = Some (7, Running) /\ nth_error (goroutines s) 1 = Some (8, Leaving).
Proof. eexists. split; [vm_compute; reflexivity|]. repeat split. Qed.

(** C26: every history is linearizable, and the Go runtime never sees the map used by two goroutines at once. *)
Theorem C26_linearizable : forall evs s l, mruns NewMap evs = Some (s, l) -> linearizable (history evs).
Proof. exact map_linearizable. Qed.
Theorem C26_no_crash : forall evs s l, mruns NewMap evs = Some (s, l) -> crashed s = false.
Proof. intros evs s l R. destruct (minv_runs _ _ _ _ minv_init R) as [_ [_ [_ [_ C]]]]. exact C. Qed.
(** While one operation writes the map, no other one uses it. *)
Theorem C26_exclusive : forall evs s l i j k v o, mruns NewMap evs = Some (s, l) -> mpcs s i = Using (Store k v) -> mpcs s j = Using o -> j = i.
Proof.
  intros evs s l i j k v o R I J. destruct (minv_runs _ _ _ _ minv_init R) as [J1 [J2 [J3 _]]].
  assert (W : wlock s = Some i) by (apply J2; rewrite I; exact Logic.I). destruct o as [k'|k' v'].
  - exfalso. assert (A : In j (rlocks s)) by (apply J1; rewrite J; exact Logic.I). rewrite J3 in A by congruence. destruct A.
  - assert (W' : wlock s = Some j) by (apply J2; rewrite J; exact Logic.I). congruence.
Qed.
(** The runtime would stop the program in exactly this case: one begins to use the map while another one uses it, and one of them writes. *)
Theorem C26_conflict : forall s id o s' l, mpcs s id = Locked o -> (forall i, In i (inuse s) -> is_using (mpcs s i)) -> mstep s (MBegin id) = Some (s', l) ->
  (crashed s' = true <-> crashed s = true \/ exists i o', In i (inuse s) /\ mpcs s i = Using o' /\ ((exists k v, o = Store k v) \/ exists k v, o' = Store k v)).
Proof.
  intros s id o s' l P U E. cbn [mstep] in E. rewrite P in E. injection E as <- _. cbn [crashed]. rewrite orb_true_iff. apply or_iff_compat_l. destruct o as [k|k v].
  - rewrite existsb_exists. split.
    + intros (i & I & A). exists i. specialize (U i I). destruct (mpcs s i) as [| | |[k'|k' v']| | |]; try discriminate A. exists (Store k' v'). eauto 6.
    + intros (i & o' & I & A & [(k' & v' & B)|(k' & v' & ->)]); [discriminate B|]. exists i. split; [exact I|]. rewrite A. reflexivity.
  - destruct (inuse s) as [|i is]; split; try discriminate.
    + intros (i & o' & [] & _).
    + intros _. specialize (U i (or_introl eq_refl)). destruct (mpcs s i) as [| | |o'| | |] eqn:A; try destruct U. exists i, o'. split; [now left|]. split; [exact A|]. left. eauto.
    + reflexivity.
Qed.
Example C26_conflict_example : exists s s' l, mruns NewMap [MInvoke 0 (Store 1 5); MLock 0; MBegin 0; MInvoke 1 (Load 1)] = Some (s, l) /\
  mstep s (MLock 1) = None /\ mpcs s 0 = Using (Store 1 5) /\
  mstep (mkMap [] None (data s) false (set_mpc (mpcs s) 1 (Locked (Load 1))) (inuse s)) (MBegin 1) = Some (s', []) /\ crashed s' = true.
Proof. do 3 eexists. split; [vm_compute; reflexivity|]. repeat split; vm_compute; reflexivity. Qed.
Print Assumptions C26_exclusive.
Print Assumptions C26_conflict.
(** An operation called is never stuck once it has the lock, and when nobody has the lock anybody can take it. *)
Theorem C26_progress : forall evs s l id, mruns NewMap evs = Some (s, l) ->
  (mpcs s id <> Fresh -> mpcs s id <> Over -> (forall i, ~ holds_read (mpcs s i) /\ ~ holds_write (mpcs s i)) \/ holds_read (mpcs s id) \/ holds_write (mpcs s id) \/ (exists o r, mpcs s id = Unlocked o r) ->
   exists e s' l', mstep s e = Some (s', l') /\ mpcs s' id <> mpcs s id).
Proof.
  intros evs s l id R F O H. destruct (minv_runs _ _ _ _ minv_init R) as [J1 [J2 [J3 [J4 J5]]]].
  destruct (mpcs s id) as [|o|o|o|o r|o r|] eqn:P.
  - congruence.
  - destruct H as [H|[H|[H|[o' [r' H]]]]]; [|destruct H | destruct H | discriminate H].
    assert (W : wlock s = None). { destruct (wlock s) as [i|]; [|reflexivity]. pose proof (proj1 (J2 i) eq_refl) as W. destruct (H i) as [_ N]. destruct (N W). }
    assert (RL : rlocks s = []). { destruct (rlocks s) as [|i is]; [reflexivity|]. destruct (H i) as [N _]. destruct N. apply J1. left; reflexivity. }
    exists (MLock id). cbn [mstep]. rewrite P, W, RL. destruct o; eexists; eexists; (split; [reflexivity|]); cbn [mpcs]; unfold set_mpc; rewrite Nat.eqb_refl; discriminate.
  - exists (MBegin id). cbn [mstep]. rewrite P. eexists; eexists; (split; [reflexivity|]); cbn [mpcs]; unfold set_mpc; rewrite Nat.eqb_refl; discriminate.
  - exists (MEnd id). cbn [mstep]. rewrite P. destruct (access (data s) o). eexists; eexists; (split; [reflexivity|]); cbn [mpcs]; unfold set_mpc; rewrite Nat.eqb_refl; discriminate.
  - exists (MUnlock id). cbn [mstep]. rewrite P. destruct o; eexists; eexists; (split; [reflexivity|]); cbn [mpcs]; unfold set_mpc; rewrite Nat.eqb_refl; discriminate.
  - exists (MRespond id r). cbn [mstep]. rewrite P. destruct r as [[x|]|]; rewrite ?Z.eqb_refl; eexists; eexists; (split; [reflexivity|]); cbn [mpcs]; unfold set_mpc; rewrite Nat.eqb_refl; discriminate.
  - congruence.
Qed.
Print Assumptions C26_linearizable.
Print Assumptions C26_no_crash.
Print Assumptions C26_progress.

(** Two loads overlap each other and a store that was called first. *)
Definition ex_map : list mevent :=
  [MInvoke 0 (Store 1 5); MInvoke 1 (Load 1); MInvoke 2 (Load 1); MLock 1; MBegin 1; MLock 2; MBegin 2; MEnd 2; MEnd 1; MUnlock 1; MUnlock 2;
   MRespond 1 (Loaded None); MLock 0; MBegin 0; MEnd 0; MUnlock 0; MInvoke 3 (Load 1); MLock 3; MBegin 3; MEnd 3; MUnlock 3; MRespond 3 (Loaded (Some 5)); MRespond 0 Stored].
Example C26_example : exists s, mruns NewMap ex_map = Some (s, [(2%nat, Load 1, Loaded None); (1%nat, Load 1, Loaded None); (0%nat, Store 1 5, Stored); (3%nat, Load 1, Loaded (Some 5))]).
Proof. eexists. vm_compute. reflexivity. Qed.
Example C26_example_waits : exists s l, mruns NewMap (firstn 5 ex_map) = Some (s, l) /\ mstep s (MLock 0) = None /\ holds_read (mpcs s 1).
Proof. eexists. eexists. split; [vm_compute; reflexivity|]. split; [reflexivity | exact I]. Qed.
(** A history in which a load after a store misses it is not linearizable. *)
Example C26_example_bad : ~ linearizable [Inv 0 (Store 1 5); Resp 0 Stored; Inv 1 (Load 1); Resp 1 (Loaded None)].
Proof.
  intros [l [N [L [R [I O]]]]]. destruct (R 1%nat (Loaded None)) as [o X]; [right; right; right; left; reflexivity|].
  assert (o = Load 1). { destruct (I _ _ _ X) as [Y|[Y|[Y|[Y|[]]]]]; try discriminate Y; injection Y as <-; reflexivity. } subst o.
  assert (B : before l 0 1) by (apply (O [Inv 0 (Store 1 5)] 0%nat Stored [] 1%nat (Load 1) [Resp 1 (Loaded None)] eq_refl); apply (in_map (fun x => fst (fst x))) in X; exact X).
  destruct B as [a [x [b [y [c [E [EX EY]]]]]]]. destruct x as [[i ox] rx]. destruct y as [[j oy] ry]. cbn [fst] in EX, EY. subst i j.
  assert (OX : ox = Store 1 5).
  { destruct (I 0%nat ox rx) as [Y|[Y|[Y|[Y|[]]]]]; try discriminate Y; [rewrite E; apply in_or_app; right; left; reflexivity | injection Y as <-; reflexivity]. }
  assert (YY : (1%nat, oy, ry) = (1%nat, Load 1, Loaded None)).
  { assert (In (1%nat, oy, ry) l) as Y by (rewrite E; apply in_or_app; right; right; apply in_or_app; right; left; reflexivity).
    clear - X Y N. induction l as [|z l IH]; [destruct X|]. unfold ids in N. cbn [map] in N. inversion N as [|p q N1 N2]; subst.
    destruct X as [X|X], Y as [Y|Y]; [congruence| | |exact (IH N2 X Y)]; exfalso; apply N1; [subst z; apply (in_map (fun x => fst (fst x))) in Y; exact Y | subst z; apply (in_map (fun x => fst (fst x))) in X; exact X]. }
  injection YY as -> ->. subst ox l. apply legal_app in L. destruct L as [_ L]. cbn [legal] in L. destruct L as [_ L].
  apply legal_app in L. destruct L as [_ L]. cbn [legal] in L. destruct L as [L _].
  assert (OPS : forall i o r, In (i, o, r) b -> (i = 0 /\ o = Store 1 5 \/ i = 1 /\ o = Load 1)%nat).
  { intros i o r Z. destruct (I i o r) as [Y|[Y|[Y|[Y|[]]]]]; try discriminate Y; [apply in_or_app; right; right; apply in_or_app; left; exact Z | injection Y as <- <-; auto | injection Y as <- <-; auto]. }
  assert (C : forall m, m 1 = Some 5 -> content m b 1 = Some 5).
  { clear - OPS. induction b as [|[[i o] r] b IH]; intros m M; cbn [content]; [exact M|].
    assert (OPS' : forall i o r, In (i, o, r) b -> (i = 0 /\ o = Store 1 5 \/ i = 1 /\ o = Load 1)%nat) by (intros i' o' r' Z; apply (OPS i' o' r'); right; exact Z).
    destruct (OPS i o r (or_introl eq_refl)) as [[_ ->]|[_ ->]]; apply (IH OPS'); [reflexivity | exact M]. }
  rewrite C in L by reflexivity. discriminate L.
Qed.
