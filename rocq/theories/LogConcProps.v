(** C138: the logging functions in several goroutines. *)
From Verif Require Import Base MsgfmtModel CountlogModel LogConcModel LogConcSpec LogConcProofs.

(** However the accesses to the cache interleave: a call that returns has made a round over handlers in which all returned, or its panic was told; the handlers are those that someone
    made for the same event name, or for the same place, or its own; a second round is made only over its own handlers, after a panic in the first. *)
Theorem C138_calls : forall evs s g, run init evs = Some s -> In (ORet g) (obs (world s)) ->
  exists c l, mine g (obs (world s)) = OBegin g c :: l ++ [ORet g] /\ served (obs (world s)) g c l.
Proof. intros evs s g R I1. destruct (returned s g (inv_run _ _ R) I1) as (c & l & _ & A & B). exists c, l. auto. Qed.
(** If none of the handlers panicked in the call, the event was given to one output handler and to at most one statistics handler, once, or, if its level is below that of the output,
    only to a statistics handler. *)
Theorem C138_once : forall evs s g, run init evs = Some s -> In (ORet g) (obs (world s)) -> let m := mine g (obs (world s)) in existsb bad m = false ->
  (outs m <= 1 /\ counts m <= 1 /\ 1 <= outs m + counts m)%nat /\ (outs m = 0%nat -> exists c, In (OBegin g c) m /\ low (obs (world s)) c).
Proof.
  intros evs s g R I1 m Nb. destruct (C138_calls _ _ _ R I1) as (c & l & A & B). subst m.
  assert (Eo : outs (mine g (obs (world s))) = outs l) by (rewrite A; cbn; unfold outs; cbn [filter is_out]; rewrite filter_app, app_length; cbn; lia).
  assert (Ec : counts (mine g (obs (world s))) = counts l) by (rewrite A; cbn; unfold counts; cbn [filter is_count]; rewrite filter_app, app_length; cbn; lia).
  rewrite Eo, Ec. rewrite A in Nb. cbn [existsb bad orb] in Nb. rewrite bad_app in Nb. apply orb_false_iff in Nb. destruct Nb as [Nb _].
  destruct B as [r l t Re T|r l t Re _ T].
  - rewrite bad_app in Nb. apply orb_false_iff in Nb. destruct Nb as [N1 _]. destruct (reaches_nums _ _ _ _ _ Re) as (_ & _ & X). destruct (X N1) as [X1 X2].
    destruct (round_nums _ _ _ _ _ _ T) as (Y & Lw & _). rewrite outs_app, counts_app, X1, X2. split; [lia|]. intro Z. exists c. split; [rewrite A; left; reflexivity|exact (Lw Z)].
  - rewrite !bad_app in Nb. destruct (round_nums _ _ _ _ _ _ T) as (_ & _ & _ & _ & Y). rewrite (Y eq_refl), orb_true_r in Nb. discriminate Nb.
Qed.
(** In any case no more than twice each, and it is given to some handler. *)
Theorem C138_twice : forall evs s g, run init evs = Some s -> In (ORet g) (obs (world s)) -> let m := mine g (obs (world s)) in
  (outs m <= 2 /\ counts m <= 2 /\ 1 <= outs m + counts m)%nat.
Proof.
  intros evs s g R I1 m. destruct (C138_calls _ _ _ R I1) as (c & l & A & B). subst m.
  assert (Eo : outs (mine g (obs (world s))) = outs l) by (rewrite A; cbn; unfold outs; cbn [filter is_out]; rewrite filter_app, app_length; cbn; lia).
  assert (Ec : counts (mine g (obs (world s))) = counts l) by (rewrite A; cbn; unfold counts; cbn [filter is_count]; rewrite filter_app, app_length; cbn; lia).
  rewrite Eo, Ec. destruct B as [r l t Re T|r l t Re _ T]; destruct (reaches_nums _ _ _ _ _ Re) as (X & _); destruct (round_nums _ _ _ _ _ _ T) as (Y & _); rewrite !outs_app, !counts_app; try lia.
  unfold outs at 3 6, counts at 3 6. cbn. lia.
Qed.
(** A panic reaches the caller only if making handlers panics. *)
Theorem C138_panics : forall evs s g, run init evs = Some s -> In (OCrash g) (obs (world s)) -> exists st, In (OMade g st None) (obs (world s)).
Proof. intros evs s g R I1. exact (crashed s g (inv_run _ _ R) I1). Qed.
(** A call is at most thirteen steps long, its beginning among them, whatever the handlers do and the others did, *)
Theorem C138_bound : forall evs s g, run init evs = Some s -> (List.length (filter (step_of g) evs) <= 13)%nat.
Proof. intros evs s g R. pose proof (run_rank g evs init s inv_init R) as H. cbn [rank init world pcs] in H. lia. Qed.
(** and it waits for no other call: alone, it ends. *)
Theorem C138_ends : forall evs s g c, run init evs = Some s -> In (OBegin g c) (obs (world s)) ->
  exists l s', Forall (fun e => step_of g e = true) l /\ run s l = Some s' /\ (In (ORet g) (obs (world s')) \/ In (OCrash g) (obs (world s'))).
Proof.
  intros evs s g c R B. pose proof (inv_run _ _ R) as Hi. assert (Nf : pcs (world s) g <> LFresh).
  { intro F. pose proof (i_pc s Hi g) as O. rewrite F in O. cbn [ok] in O. assert (X : In (OBegin g c) (mine g (obs (world s)))) by (apply filter_In; split; [exact B|apply Nat.eqb_refl]). rewrite O in X. destruct X. }
  clear R B. remember (rank (pcs (world s) g)) as k eqn:Ek. revert s Hi Nf Ek. induction k as [k IH] using lt_wf_ind. intros s Hi Nf Ek. pose proof (progress s g) as P. pose proof (i_pc s Hi g) as O.
  assert (Go : (exists e s', step_of g e = true /\ step s e = Some s') ->
    exists l s', Forall (fun e => step_of g e = true) l /\ run s l = Some s' /\ (In (ORet g) (obs (world s')) \/ In (OCrash g) (obs (world s')))).
  { intros (e & s1 & E1 & E2). pose proof (step_rank s e s1 g Hi E2) as Rk. rewrite E1 in Rk.
    assert (N1 : pcs (world s1) g <> LFresh). { intro F. rewrite F in Rk. cbn [rank] in Rk. destruct (pcs (world s) g) as [| | | | | | |c0 r|c0 r ?|c0 r ?|c0 r| | | ]; cbn [rank] in Rk; try destruct (r_mode r); lia. }
    destruct (IH (rank (pcs (world s1) g)) ltac:(lia) s1 (inv_step _ _ _ Hi E2) N1 eq_refl) as (l & s2 & A & D & F).
    exists (e :: l), s2. split; [constructor; [exact E1|exact A]|]. split; [cbn [run]; rewrite E2; exact D|exact F]. }
  destruct (pcs (world s) g) eqn:Q; try exact (Go P); [contradiction| |].
  - exists [], s. split; [constructor|]. split; [reflexivity|]. left. destruct O as (c0 & l & A & _). apply (mine_in g). rewrite A. right. apply in_or_app. right. left. reflexivity.
  - exists [], s. split; [constructor|]. split; [reflexivity|]. right. destruct O as (c0 & l & st & A & _). apply (mine_in g). rewrite A. right. apply in_or_app. right. right. left. reflexivity.
Qed.
(** After some call with an event name has returned, the calls with this name that begin later make no handlers, unless a handler panicked. *)
Theorem C138_cached : forall evs s v cv more s' g c, run init evs = Some s -> In (OBegin v cv) (obs (world s)) -> In (ORet v) (obs (world s)) -> run s more = Some s' ->
  (forall c0, ~ In (OBegin g c0) (obs (world s))) -> In (OBegin g c) (obs (world s')) -> cname c = cname cv -> (exists st a, In (OMade g st a) (obs (world s'))) -> exists o, In o (obs (world s')) /\ bad o = true.
Proof.
  intros evs s v cv more s' g c R Bv Rv R' Nb Bg En (st & a & M). pose proof (inv_run _ _ R) as Hi.
  assert (In_mine : forall g o all, In o all -> of_call g o = true -> In o (mine g all)) by (intros; apply filter_In; auto).
  destruct (returned s v Hi Rv) as (_ & _ & Ov & _). pose proof (cov_run v _ _ R) as Cv. unfold cov in Cv. rewrite Ov in Cv. pose proof (Cv cv (In_mine _ _ _ Bv (Nat.eqb_refl v))) as Ca.
  assert (F : pcs (world s) g = LFresh).
  { pose proof (i_pc s Hi g) as O. pose proof (ok_begin _ _ _ _ O) as Ob. destruct (pcs (world s) g) as [|k|k|k r|k st1|k st1|k r|k r|k r next|k r h|k r|k st1| | ] eqn:Q; [reflexivity|exfalso ..]; try (exact (Nb k (mine_in _ _ _ Ob))).
    - destruct O as (k & l & A & _). apply (Nb k). apply (mine_in g). rewrite A. left. reflexivity.
    - destruct O as (k & l & st1 & A & _). apply (Nb k). apply (mine_in g). rewrite A. left. reflexivity. }
  assert (C0 : calm (cname cv) s g).
  { split; [|rewrite F; exact Logic.I]. intros c0 st0 a0 X. destruct (Nb c0 (mine_in _ _ _ X)). }
  destruct (calm_run _ _ _ _ _ Hi Ca R' C0) as [K _]. exact (K c st a (In_mine _ _ _ Bg (Nat.eqb_refl g)) En (In_mine _ _ _ M (Nat.eqb_refl g))).
Qed.
(** When a panic was seen for an event name, and no call with the name is between the look into the cache and its Store: all later calls with the name make one round, over handlers that were
    made for their place. *)
Theorem C138_redirected : forall evs s n more s' g c, run init evs = Some s -> quiet n s -> run s more = Some s' -> (forall c0, ~ In (OBegin g c0) (obs (world s))) ->
  In (OBegin g c) (obs (world s')) -> cname c = n -> In (ORet g) (obs (world s')) -> by_place (obs (world s')) g c (mine g (obs (world s'))).
Proof.
  intros evs s n more s' g c R Qu R' Nb Bg En Rg. pose proof (inv_run _ _ R) as Hi.
  assert (F : pcs (world s) g = LFresh).
  { pose proof (i_pc s Hi g) as O. pose proof (ok_begin _ _ _ _ O) as Ob. destruct (pcs (world s) g) as [|k|k|k r|k st1|k st1|k r|k r|k r next|k r h|k r|k st1| | ] eqn:Q; [reflexivity|exfalso ..]; try (exact (Nb k (mine_in _ _ _ Ob))).
    - destruct O as (k & l & A & _). apply (Nb k). apply (mine_in g). rewrite A. left. reflexivity.
    - destruct O as (k & l & st1 & A & _). apply (Nb k). apply (mine_in g). rewrite A. left. reflexivity. }
  assert (L0 : late (obs (world s)) n g (pcs (world s) g) (mine g (obs (world s)))) by (rewrite F; exact Logic.I).
  pose proof (late_run _ _ _ _ _ Hi Qu R' L0) as L. destruct (returned s' g (inv_run_from _ _ _ Hi R') Rg) as (_ & _ & Og & _). rewrite Og in L. cbn [late] in L.
  apply L; [|exact En]. apply filter_In. split; [exact Bg|apply Nat.eqb_refl].
Qed.

(** * Examples *)
Definition ex_call (level : Z) (name file : string) (line : Z) : call := mkCall level (bs name) [] None [] (bs "f") (bs file) line.
(** Two calls look for handlers at the same time, both make some; a third uses those stored last; the level is changed while it runs *)
Definition ex_three : list event :=
  [Begin 0 (ex_call 30 "e" "a.go" 1); Begin 1 (ex_call 30 "e" "b.go" 2); Load 0; Load 1; Makes 0 (Some (None, 10%nat)); Makes 1 (Some (Some 5%nat, 11%nat)); Store 1; Handles 1; Outs 1 true; Store 0; Handles 0; Counts 1 true; Outs 0 true;
   SetMin 40; Begin 2 (ex_call 50 "e" "c.go" 3); Load 2; Handles 2; Outs 2 true].
Example C138_calls_example : exists s, run init ex_three = Some s /\ In (ORet 2) (obs (world s)) /\ mine 2 (obs (world s)) = [OBegin 2 (ex_call 50 "e" "c.go" 3); OOut 2 10 true; ORet 2] /\
  mine 1 (obs (world s)) = [OBegin 1 (ex_call 30 "e" "b.go" 2); OMade 1 (siteOf (ex_call 30 "e" "b.go" 2)) (Some (Some 5%nat, 11%nat)); OOut 1 11 true; OCount 1 5 true; ORet 1].
Proof. eexists. split; [vm_compute; reflexivity|]. split; [vm_compute; tauto|]. split; vm_compute; reflexivity. Qed.
Example C138_once_example : exists s, run init ex_three = Some s /\ In (ORet 1) (obs (world s)) /\ existsb bad (mine 1 (obs (world s))) = false /\ outs (mine 1 (obs (world s))) = 1%nat /\ counts (mine 1 (obs (world s))) = 1%nat.
Proof. eexists. split; [vm_compute; reflexivity|]. split; [vm_compute; tauto|]. repeat split; vm_compute; reflexivity. Qed.
(** The statistics panic after the event was written; it is written again by the handlers made for the place unknown *)
Definition ex_again : list event :=
  [Begin 0 (ex_call 30 "e" "a.go" 1); Load 0; Makes 0 (Some (Some 5%nat, 10%nat)); Store 0; Handles 0; Outs 0 true; Counts 0 false; Recovers 0; Makes 0 (Some (Some 6%nat, 11%nat)); Handles 0; Outs 0 true; Counts 0 false; Recovers 0].
Example C138_twice_example : exists s, run init ex_again = Some s /\ In (ORet 0) (obs (world s)) /\ outs (mine 0 (obs (world s))) = 2%nat /\ counts (mine 0 (obs (world s))) = 2%nat /\
  List.length (filter (step_of 0) ex_again) = 13%nat.
Proof. eexists. split; [vm_compute; reflexivity|]. split; [vm_compute; tauto|]. repeat split; vm_compute; reflexivity. Qed.
Example C138_panics_example : exists s, run init [Begin 0 (ex_call 30 "e" "a.go" 1); Load 0; Makes 0 None] = Some s /\ In (OCrash 0) (obs (world s)).
Proof. eexists. split; [vm_compute; reflexivity|]. vm_compute. tauto. Qed.
Example C138_bound_example : exists s, run init (ex_three ++ [Begin 3 (ex_call 30 "x" "d.go" 4)]) = Some s /\ List.length (filter (step_of 1) ex_three) = 7%nat.
Proof. eexists. split; [vm_compute; reflexivity|]. vm_compute. reflexivity. Qed.
Example C138_ends_example : exists s, run init (firstn 11 ex_three) = Some s /\ In (OBegin 1 (ex_call 30 "e" "b.go" 2)) (obs (world s)) /\ ~ In (ORet 1) (obs (world s)).
Proof. eexists. split; [vm_compute; reflexivity|]. split; [vm_compute; tauto|]. vm_compute. intuition discriminate. Qed.
Example C138_cached_example : exists s s', run init (firstn 13 ex_three) = Some s /\ In (ORet 0) (obs (world s)) /\ run s (skipn 13 ex_three) = Some s' /\
  (forall c, ~ In (OBegin 2 c) (obs (world s))) /\ In (OBegin 2 (ex_call 50 "e" "c.go" 3)) (obs (world s')) /\ ~ exists st a, In (OMade 2 st a) (obs (world s')).
Proof.
  do 2 eexists. split; [vm_compute; reflexivity|]. split; [vm_compute; tauto|]. split; [vm_compute; reflexivity|]. split; [intro c; vm_compute; intuition discriminate|]. split; [vm_compute; tauto|].
  intros (st & a & H). vm_compute in H. intuition discriminate.
Qed.
(** Afterwards a call from another place, and a second one from there *)
Definition ex_places : list event :=
  [Begin 1 (ex_call 30 "e" "b.go" 2); Load 1; Load 1; Makes 1 (Some (None, 12%nat)); Store 1; Handles 1; Outs 1 false; Recovers 1; Begin 2 (ex_call 30 "e" "b.go" 2); Load 2; Load 2; Handles 2; Outs 2 true].
Example C138_redirected_example : exists s s', run init ex_again = Some s /\ quiet (bs "e") s /\ run s ex_places = Some s' /\
  mine 1 (obs (world s')) = [OBegin 1 (ex_call 30 "e" "b.go" 2); OMade 1 (placeSite (siteOf (ex_call 30 "e" "a.go" 1)) (ex_call 30 "e" "b.go" 2)) (Some (None, 12%nat)); OOut 1 12 false; OTold 1; ORet 1] /\
  mine 2 (obs (world s')) = [OBegin 2 (ex_call 30 "e" "b.go" 2); OOut 2 12 true; ORet 2].
Proof.
  do 2 eexists. split; [vm_compute; reflexivity|]. split.
  - split; [eexists; vm_compute; reflexivity|]. intro g. destruct g as [|g]; vm_compute; exact Logic.I.
  - split; [vm_compute; reflexivity|]. split; vm_compute; reflexivity.
Qed.

(** * What does not hold *)
(** After a panic of the handlers of a name, the calls with the name that begin after that one has returned are given to handlers for their place. *)
Definition C138_full : Prop := forall evs s v cv o more s' g c, run init evs = Some s ->
  In (OBegin v cv) (obs (world s)) -> In o (mine v (obs (world s))) -> bad o = true -> In (ORet v) (obs (world s)) -> run s more = Some s' ->
  (forall c0, ~ In (OBegin g c0) (obs (world s))) -> In (OBegin g c) (obs (world s')) -> cname c = cname cv -> In (ORet g) (obs (world s')) ->
  exists h b st x a, In (OOut g h b) (obs (world s')) /\ In (OMade x st (Some (a, h))) (obs (world s')) /\ File st = cfile c /\ Line st = cline c.
(** Call 0 has found no handlers when call 1 begins; the handlers of call 1 panic, it returns; then call 0 stores its handlers, which call 2 uses *)
Definition ex_race1 : list event :=
  [Begin 0 (ex_call 30 "e" "a.go" 1); Load 0; Begin 1 (ex_call 30 "e" "b.go" 2); Load 1; Makes 1 (Some (None, 10%nat)); Store 1; Handles 1; Outs 1 false; Recovers 1; Makes 1 (Some (None, 11%nat)); Handles 1; Outs 1 true].
Definition ex_race2 : list event := [Makes 0 (Some (None, 12%nat)); Store 0; Handles 0; Outs 0 true; Begin 2 (ex_call 30 "e" "c.go" 3); Load 2; Handles 2; Outs 2 true].
(** A racing first call undoes the redirection: a later call is written with a place it was not logged from. *)
Theorem C138_race_refuted : exists s s', run init ex_race1 = Some s /\ (exists st, byEvent s (bs "e") = Some (Redirector st)) /\ In (ORet 1) (obs (world s)) /\ run s ex_race2 = Some s' /\
  mine 2 (obs (world s')) = [OBegin 2 (ex_call 30 "e" "c.go" 3); OOut 2 12 true; ORet 2] /\ (forall x st a, In (OMade x st (Some (a, 12%nat))) (obs (world s')) -> File st = bs "a.go").
Proof.
  do 2 eexists. split; [vm_compute; reflexivity|]. split; [eexists; vm_compute; reflexivity|]. split; [vm_compute; tauto|]. split; [vm_compute; reflexivity|]. split; [vm_compute; reflexivity|].
  intros x st a H. vm_compute in H. repeat (destruct H as [H|H]; [try discriminate H; injection H as <- <- <-; reflexivity|]). destruct H.
Qed.
Theorem C138_full_refuted : ~ C138_full.
Proof.
  intro F. destruct C138_race_refuted as (s & s' & R1 & _ & Rt & R2 & M & K).
  pose (o := fun l => match run init l with Some x => obs (world x) | None => [] end).
  assert (S1 : obs (world s) = o ex_race1) by (unfold o; rewrite R1; reflexivity). assert (S2 : obs (world s') = o (ex_race1 ++ ex_race2)) by (unfold o; rewrite run_app, R1, R2; reflexivity).
  destruct (F ex_race1 s 1%nat (ex_call 30 "e" "b.go" 2) (OOut 1 10 false) ex_race2 s' 2%nat (ex_call 30 "e" "c.go" 3) R1) as (h & b & st & x & a & A & B & C & _).
  - rewrite S1. vm_compute. tauto.
  - apply filter_In. split; [rewrite S1; vm_compute; tauto|reflexivity].
  - reflexivity.
  - exact Rt.
  - exact R2.
  - intros c0 H. rewrite S1 in H. vm_compute in H. intuition discriminate.
  - rewrite S2. vm_compute. tauto.
  - reflexivity.
  - rewrite S2. vm_compute. tauto.
  - assert (Eh : h = 12%nat). { rewrite S2 in A. vm_compute in A. repeat (destruct A as [A|A]; [try discriminate A; injection A as <- _; reflexivity|]). destruct A. }
    subst h. rewrite (K _ _ _ B) in C. discriminate C.
Qed.
(** After a panic handlers are kept by place only: a call from a place where another event is logged, too, is given to handlers made for that event. *)
Theorem C138_name_refuted : exists evs s g c h, run init evs = Some s /\ mine g (obs (world s)) = [OBegin g c; OOut g h true; ORet g] /\
  forall x st a, In (OMade x st (Some (a, h))) (obs (world s)) -> SiteEvent st <> cname c.
Proof.
  exists (ex_again ++ [Begin 1 (ex_call 30 "e" "log.go" 7); Load 1; Load 1; Makes 1 (Some (None, 20%nat)); Store 1; Handles 1; Outs 1 true;
    Begin 2 (ex_call 30 "other" "log.go" 7); Load 2; Makes 2 (Some (None, 21%nat)); Store 2; Handles 2; Outs 2 false; Recovers 2; Makes 2 (Some (None, 22%nat)); Handles 2; Outs 2 true;
    Begin 3 (ex_call 30 "other" "log.go" 7); Load 3; Load 3; Handles 3; Outs 3 true]).
  eexists. exists 3%nat, (ex_call 30 "other" "log.go" 7), 20%nat. split; [vm_compute; reflexivity|]. split; [vm_compute; reflexivity|].
  intros x st a H. vm_compute in H. repeat (destruct H as [H|H]; [try discriminate H; injection H as <- <- <-; discriminate|]). destruct H.
Qed.

Print Assumptions C138_calls.
Print Assumptions C138_once.
Print Assumptions C138_twice.
Print Assumptions C138_panics.
Print Assumptions C138_bound.
Print Assumptions C138_ends.
Print Assumptions C138_cached.
Print Assumptions C138_redirected.
Print Assumptions C138_race_refuted.
Print Assumptions C138_full_refuted.
Print Assumptions C138_name_refuted.
