(** Claim C141: LogInfo and LogPanic of concurrent may panic, or call the executor again. *)
From Coq Require Import ZArith List Lia Bool.
From Verif Require Import Base ExecHookModel ExecHookSpec ExecHookProofs.
Import ListNotations.
Open Scope Z_scope.
Open Scope list_scope.

(** ** C141 *)
(** Whatever the hooks do: exactly the goroutine that is between a Lock and its Unlock has the mutex, so there is never a second one. *)
Theorem C141_lock : forall evs s t, run init evs = Some s -> (lock s = Some t <-> holds (stack s t) = true).
Proof. intros evs s t R. apply (i_lock s (inv_run _ _ R)). Qed.
(** The map has for each place the number of the goroutines started there that have not ended, also after panics of handlers and of LogInfo. *)
Theorem C141_counts : forall evs s loc, run init evs = Some s -> get (counts s) loc = Z.of_nat (alive s loc).
Proof. intros evs s loc R. apply (i_counts s (inv_run _ _ R)). Qed.
(** checkGoroutines answers true only when no goroutine of the executor is left, and calls LogInfo only when there is one. *)
Theorem C141_check : forall evs s e s' t, run init evs = Some s -> step s e = Some s' ->
  (results s' = (t, true) :: results s -> forall n, stack s (G n) = []) /\ (forall r, stack s t = FCheckIn :: r -> stack s' t = FInfo :: r -> exists n, stack s (G n) <> []).
Proof.
  intros evs s e s' t R E. assert (Hi := inv_run _ _ R). assert (Nd : NoDup (keys (counts s))) by (eapply nodup_run; [|exact R]; constructor). assert (Id := idle_iff s Hi Nd). split.
  - intro H. apply Id. unfold step in E. destruct (crashed s); [discriminate E|].
    destruct e as [t' c|t'|t' p|t'|t']; destruct (stack s t') as [|g r]; try discriminate E; try (destruct g; try discriminate E); try (destruct (lock s); try discriminate E); try (destruct (existsb _ _) eqn:X); try reflexivity;
      try (destruct r as [|[]]); try (destruct t'; try discriminate E); injection E as <-; cbn in H; try (destruct (no_self _ _ _ H)); try discriminate H; injection H; intros; try (destruct (no_self _ _ _ H0)); try discriminate.
  - intros r Q Q'. destruct (existsb (fun x => 0 <? snd x) (counts s)) eqn:X.
    + apply existsb_exists in X. destruct X as ([k v] & I1 & V). cbn in V. assert (Gv := get_in _ _ _ Nd I1). rewrite (i_counts s Hi) in Gv. assert (A : (0 < alive s k)%nat) by lia. apply alive_in in A. destruct A as [n A]. exists n. intro Z. rewrite Z in A. discriminate A.
    + exfalso. assert (E1 := proj1 Id eq_refl). assert (Hi' := inv_step _ _ _ Hi E). assert (Lk : lock s = Some t) by (apply (i_lock s Hi); rewrite Q; reflexivity).
      assert (L' : lock s' = Some t) by (apply (i_lock s' Hi'); rewrite Q'; reflexivity).
      unfold step in E. destruct (crashed s); [discriminate E|].
      assert (Po : forall t' st, t' <> t -> s' = put s t' st -> False) by (intros t' st N ->; rewrite (put_other _ _ _ _ N), Q in Q'; discriminate Q').
      destruct e as [t' c|t'|t' p|t'|t']; destruct (tid_dec t' t) as [->|N]; try (rewrite Q in E; try discriminate E; rewrite X in E; injection E as <-; cbn in L'; discriminate L');
        destruct (stack s t') as [|g r'] eqn:Q1; try discriminate E; try (destruct g; try discriminate E); try rewrite Lk in E; try discriminate E;
        try (assert (Lk' : lock s = Some t') by (apply (i_lock s Hi); rewrite Q1; reflexivity); congruence).
      * destruct t' as [a|a]; [|discriminate E]. eapply (Po (U a)); [exact N|]. injection E as <-. reflexivity.
      * injection E as <-. eapply Po; [exact N|reflexivity].
      * injection E as <-. eapply Po; [exact N|reflexivity].
      * injection E as <-. eapply Po; [exact N|reflexivity].
      * injection E as <-. eapply Po; [exact N|reflexivity].
      * injection E as <-. change (stack s t = FInfo :: r) in Q'. rewrite Q in Q'. discriminate Q'.
Qed.
(** The mutex is free again after at most two steps of the goroutine that has it, when that is not in a call LogInfo has made and LogInfo returns; when LogInfo panics the mutex is free, or the program is over. *)
Theorem C141_released : forall evs s t, run init evs = Some s -> crashed s = false -> lock s = Some t -> ~ reentered (stack s t) ->
  (exists evs' s', incl evs' [Step t; HookRet t] /\ (List.length evs' <= 2)%nat /\ run s evs' = Some s' /\ lock s' = None) /\
  (forall s', hd_error (stack s t) = Some FInfo -> step s (HookPanic t) = Some s' -> lock s' = None \/ crashed s' = true).
Proof.
  intros evs s t R C L N. assert (Hi := inv_run _ _ R). assert (Hh := proj1 (i_lock s Hi t) L). assert (W := i_wf s Hi t). destruct (stack s t) as [|f r] eqn:Q; [discriminate Hh|]. split.
  - assert (Hf : holder f = true).
    { destruct (holder f) eqn:F; [reflexivity|]. exfalso. rewrite holds_cons, F in Hh. cbn in Hh. apply N. unfold reentered. cbn [tl].
      apply holds_in in Hh. destruct Hh as (g & I1 & Hg). assert (B := wf_below _ _ _ W _ I1). destruct g; try discriminate Hg; try discriminate B; exact I1. }
    assert (S1 : forall s', step s (Step t) = Some s' -> lock s' = None -> exists evs' s', incl evs' [Step t; HookRet t] /\ (List.length evs' <= 2)%nat /\ run s evs' = Some s' /\ lock s' = None)
      by (intros s' E1 E2; exists [Step t], s'; cbn [run]; rewrite E1; repeat split; [intros x [<-|[]]; left; reflexivity|cbn; lia|exact E2]).
    destruct f; try discriminate Hf.
    + eapply S1; [unfold step; rewrite C, Q; reflexivity|reflexivity].
    + eapply S1; [unfold step; rewrite C, Q; reflexivity|reflexivity].
    + destruct (existsb (fun x => 0 <? snd x) (counts s)) eqn:X; [|eapply S1; [unfold step; rewrite C, Q, X; reflexivity|reflexivity]].
      exists [Step t; HookRet t]. eexists. split; [apply incl_refl|]. split; [cbn; lia|]. cbn [run]. unfold step at 1. rewrite C, Q, X. unfold step. rewrite put_crashed, C.
      assert (P : stack (put s t (FInfo :: r)) t = FInfo :: r) by (apply put_same; destruct t; [exact Logic.I|rewrite Q; discriminate]). rewrite P. split; reflexivity.
    + exists [HookRet t]. eexists. split; [intros x [<-|[]]; right; left; reflexivity|]. split; [cbn; lia|]. cbn [run]. unfold step. rewrite C, Q. split; reflexivity.
  - intros s' H E. cbn in H. injection H as ->. unfold step in E. rewrite C, Q in E. destruct r as [|[]]; injection E as <-; cbn; auto.
Qed.
(** While no LogInfo has called the executor: whatever has happened, all goroutines can come to an end, with every StopAndWait in a goroutine of the user that waits for the mutex left as it is, and it then answers true. *)
Theorem C141_finish : forall evs s, run init evs = Some s -> crashed s = false -> (forall t, ~ reentered (stack s t)) ->
  exists evs' s', run s evs' = Some s' /\ lock s' = None /\ (forall n, stack s' (G n) = []) /\ (forall u, lock s <> Some (U u) -> stack s' (U u) = stack s (U u)) /\
    forall u r, stack s' (U u) = FCheck :: r -> exists s2, run s' [Step (U u); Step (U u)] = Some s2 /\ results s2 = (U u, true) :: results s'.
Proof.
  intros evs s R C N. assert (Hi := inv_run _ _ R).
  assert (F : exists evs1 s1, run s evs1 = Some s1 /\ lock s1 = None /\ crashed s1 = false /\ forall u, lock s <> Some (U u) -> stack s1 (U u) = stack s (U u)).
  { destruct (lock s) as [t|] eqn:L; [|exists [], s; repeat split; try assumption].
    destruct (C141_released _ _ _ R C L (N t)) as [(evs1 & s1 & I1 & _ & R1 & L1) _]. exists evs1, s1. split; [exact R1|]. split; [exact L1|].
    clear L1 L Hi N R. revert s C s1 R1. induction evs1 as [|e evs1 IH]; intros s C s1 R1; cbn [run] in R1; [injection R1 as <-; auto|]. destruct (step s e) as [s2|] eqn:E; [|discriminate R1].
    assert (X : crashed s2 = false /\ forall u, Some t <> Some (U u) -> stack s2 (U u) = stack s (U u)).
    { assert (Pu : forall st u, Some t <> Some (U u) -> usr (put s t st) u = usr s u) by (intros st u Nu; destruct t as [v|v]; [|reflexivity]; cbn; destruct (Nat.eqb_spec u v) as [->|]; [destruct (Nu eq_refl)|reflexivity]).
      unfold step in E. rewrite C in E. destruct (I1 e (or_introl eq_refl)) as [<-|[<-|[]]]; destruct (stack s t) as [|g r]; try discriminate E; destruct g; try discriminate E; try (destruct (lock s); try discriminate E); try (destruct (existsb _ _)); injection E as <-; cbn [setLock setCounts answer spawn crashed stack usr]; rewrite ?put_crashed; split; try exact C; intros u Nu; apply Pu; exact Nu. }
    destruct X as [X1 X2]. destruct (IH (fun x Ix => I1 x (or_intror Ix)) s2 X1 s1 R1) as [Y1 Y2]. split; [exact Y1|]. intros u Nu. rewrite (Y2 u Nu). apply X2. exact Nu. }
  destruct F as (evs1 & s1 & R1 & L1 & C1 & F). assert (Hi1 := inv_run_from _ _ _ Hi R1). destruct (drain _ s1 (le_n _) Hi1 C1 L1) as (evs2 & s2 & R2 & L2 & C2 & U2 & G2).
  exists (evs1 ++ evs2), s2. split; [rewrite run_app, R1; exact R2|]. split; [exact L2|]. split; [exact G2|]. split; [intros u Nu; rewrite <- (F u Nu); cbn [stack]; rewrite U2; reflexivity|].
  intros u r Q. assert (Nd : NoDup (keys (counts s2))) by (eapply nodup_run; [|exact R2]; eapply nodup_run; [|exact R1]; eapply nodup_run; [|exact R]; constructor).
  assert (X := proj2 (idle_iff s2 (inv_run_from _ _ _ Hi1 R2) Nd) G2). eexists. cbn [run]. unfold step. rewrite C2, Q, L2. cbn [crashed setLock put stack usr counts]. rewrite C2, Nat.eqb_refl, X. split; reflexivity.
Qed.
(** Go starts one goroutine, which runs the handler, and releases the mutex. *)
Theorem C141_go : forall evs s t loc r s', run init evs = Some s -> stack s t = FGoIn loc :: r -> step s (Step t) = Some s' ->
  stack s' (G (List.length (gor s))) = [FRun loc] /\ List.length (gor s') = S (List.length (gor s)) /\ stack s' t = r /\ lock s' = None.
Proof.
  intros evs s t loc r s' R Q E. unfold step in E. destruct (crashed s); [discriminate E|]. rewrite Q in E. injection E as <-.
  assert (Lg : List.length (gor (put s t r)) = List.length (gor s)) by (destruct t; [reflexivity|apply put_nth_length]). cbn [stack setLock spawn setCounts gor lock]. rewrite app_nth2 by lia. rewrite Lg, Nat.sub_diag, app_length, Lg. cbn [List.length].
  split; [reflexivity|]. split; [lia|]. split; [|reflexivity]. destruct t as [n|n]; [cbn; rewrite Nat.eqb_refl; reflexivity|]. assert (Ln : (n < List.length (gor s))%nat) by (apply stack_len; rewrite Q; discriminate). cbn. rewrite app_nth1 by (rewrite put_nth_length; exact Ln). apply put_nth_same. exact Ln.
Qed.
(** A handler that panics is followed by LogPanic, one that returns is not; handlers and both hooks can call the executor at any moment, and go on being what they are in. *)
Theorem C141_hooks : forall evs s t f r, run init evs = Some s -> crashed s = false -> stack s t = f :: r ->
  (forall loc p, f = FRun loc -> exists s', step s (End t p) = Some s' /\ stack s' t = (if p then FPanic loc else FEnd loc) :: r) /\
  (forall loc, f = FPanic loc -> exists s', step s (HookRet t) = Some s' /\ stack s' t = FEnd loc :: r) /\
  (forall loc c, f = FRun loc \/ f = FPanic loc \/ f = FInfo -> exists s', step s (Call t c) = Some s' /\ stack s' t = (match c with KGo l => FGo l | KCheck => FCheck end) :: f :: r /\ lock s' = lock s).
Proof.
  intros evs s t f r R C Q. assert (P : forall st, stack (put s t st) t = st) by (intro st; apply put_same; destruct t; [exact Logic.I|rewrite Q; discriminate]). unfold step. rewrite C, Q. split; [|split].
  - intros loc p ->. eexists. split; [reflexivity|apply P].
  - intros loc ->. eexists. split; [reflexivity|apply P].
  - intros loc c [-> | [-> | ->]]; (eexists; split; [reflexivity|]; split; [apply P|apply put_lock]).
Qed.
(** When LogInfo calls Go or StopAndWait of the executor that has called it, that is the end of the executor: whatever happens then, the mutex stays taken, the call does not come back, no call of Go starts anything, no
    goroutine is ever again counted as ended and no call of checkGoroutines ever again answers. *)
Theorem C141_stuck : forall evs s t evs' s', run init evs = Some s -> reentered (stack s t) -> run s evs' = Some s' ->
  lock s' = Some t /\ stack s' t = stack s t /\ counts s' = counts s /\ List.length (gor s') = List.length (gor s) /\ results s' = results s.
Proof. intros evs s t evs' s' R Re R'. destruct (stuck_run _ _ _ _ (inv_run _ _ R) Re R') as (A & B & C & D & E). auto. Qed.
(** The program ends only by a panic of a hook under LogPanic. *)
Theorem C141_crash : forall evs s, run init evs = Some s -> crashed s = true -> exists evs1 t s1 l, evs = evs1 ++ [HookPanic t] /\ run init evs1 = Some s1 /\ In (FPanic l) (stack s1 t).
Proof.
  intros evs. induction evs as [|e evs IH] using rev_ind; intros s R C; [injection R as <-; discriminate C|]. rewrite run_app in R. destruct (run init evs) as [s1|] eqn:R1; [|discriminate R]. cbn [run] in R. destruct (step s1 e) as [s2|] eqn:E; [|discriminate R]. injection R as ->.
  assert (W := fun t => i_wf s1 (inv_run _ _ R1) t). assert (Sg := fun t => i_single s1 (inv_run _ _ R1) t). unfold step in E. destruct (crashed s1) eqn:C1; [discriminate E|].
  destruct e as [t c|t|t p|t|t]; specialize (W t); specialize (Sg t); destruct (stack s1 t) as [|g r] eqn:Q; try discriminate E; try (destruct g; try discriminate E); 
    try (destruct t; try discriminate E; try (destruct (lock s1); try discriminate E); try (destruct (existsb _ _)); injection E as <-; cbn in C; congruence).
  - exists evs, t, s1, loc. split; [reflexivity|]. split; [exact R1|]. rewrite Q. left. reflexivity.
  - destruct r as [|g r]; [destruct t; injection E as <-; cbn in C; congruence|]. destruct g as [l|l|l|l|l|l| | |]; try (destruct t; injection E as <-; cbn in C; congruence);
      try (exists evs, t, s1, l; split; [reflexivity|]; split; [exact R1|]; rewrite Q; right; left; reflexivity).
    all: exfalso; assert (B := wf_below _ _ _ W _ (or_introl eq_refl)); try discriminate B; cbn in Sg; destruct Sg as [Sg _]; specialize (Sg eq_refl); cbn in Sg; discriminate Sg.
Qed.
(** That the mutex can always be free again *)
Definition C141_full : Prop := forall evs s t, run init evs = Some s -> crashed s = false -> lock s = Some t -> exists evs' s', run s evs' = Some s' /\ lock s' = None.
(** LogInfo starts something with the same executor while StopAndWait waits for a goroutine; that goroutine ends, but can never be counted as ended. *)
Definition reentry : list event := [Call (U 0) (KGo 5); Step (U 0); Step (U 0); Call (U 1) KCheck; Step (U 1); Step (U 1); Call (U 1) (KGo 6)].
Theorem C141_reentry_refuted : exists s s', run init reentry = Some s /\ crashed s = false /\ lock s = Some (U 1) /\ stack s (U 1) = [FGo 6; FInfo] /\
  step s (End (G 0) false) = Some s' /\ stack s' (G 0) = [FEnd 5] /\ forall evs s2, run s' evs = Some s2 -> lock s2 = Some (U 1) /\ results s2 = [] /\ get (counts s2) 5 = 1.
Proof.
  assert (X : match run init (reentry ++ [End (G 0) false]) with Some s => Some (crashed s, lock s, stack s (U 1), stack s (G 0), results s, get (counts s) 5) | None => None end = Some (false, Some (U 1), [FGo 6; FInfo], [FEnd 5], [], 1)) by reflexivity.
  assert (Y : match run init reentry with Some s => Some (crashed s, lock s, stack s (U 1)) | None => None end = Some (false, Some (U 1), [FGo 6; FInfo])) by reflexivity.
  rewrite run_app in X. destruct (run init reentry) as [s|] eqn:R; [|discriminate X]. cbn [run] in X. destruct (step s (End (G 0) false)) as [s'|] eqn:E; [|discriminate X].
  injection Y as Y1 Y2 Y3. injection X as _ X2 X3 X4 X5 X6. exists s, s'. repeat (split; [first [reflexivity|assumption]|]). intros evs s2 R2.
  assert (R1 : run init (reentry ++ [End (G 0) false]) = Some s') by (rewrite run_app, R; cbn [run]; rewrite E; reflexivity).
  assert (Re : reentered (stack s' (U 1))) by (unfold reentered; cbn [stack]; rewrite X3; left; reflexivity). destruct (C141_stuck _ _ _ _ _ R1 Re R2) as (A & _ & B & _ & C). rewrite B, C. auto.
Qed.
Theorem C141_full_refuted : ~ C141_full.
Proof.
  intro F. destruct C141_reentry_refuted as (s & s' & R & C & L & S & _). destruct (F _ _ _ R C L) as (evs & s2 & R2 & N).
  assert (Re : reentered (stack s (U 1))) by (unfold reentered; rewrite S; left; reflexivity). destruct (C141_stuck _ _ _ _ _ R Re R2) as (A & _). congruence.
Qed.
(** A handler calls StopAndWait of its own executor: LogInfo panics in it, the mutex is free, the handler is over by that panic, LogPanic returns; after that checkGoroutines answers true. *)
Example C141_lock_example : match run init [Call (U 0) (KGo 5); Step (U 0); Step (U 0); Call (G 0) KCheck; Step (G 0); Step (G 0)] with
  | Some s => lock s = Some (G 0) /\ holds (stack s (G 0)) = true /\ get (counts s) 5 = 1 /\ alive s 5 = 1%nat /\ stack s (G 0) = [FInfo; FRun 5] /\ crashed s = false | None => False end.
Proof. vm_compute. repeat split. Qed.
Example C141_check_example : match run init [Call (U 0) (KGo 5); Step (U 0); Step (U 0); Call (G 0) KCheck; Step (G 0); Step (G 0); HookPanic (G 0); HookRet (G 0); Step (G 0); Step (G 0); Call (U 1) KCheck; Step (U 1)] with
  | Some s => stack s (U 1) = [FCheckIn] /\ results s = [] /\ match step s (Step (U 1)) with Some s' => results s' = [(U 1, true)] /\ lock s' = None /\ stack s' (G 0) = [] | None => False end | None => False end.
Proof. vm_compute. repeat split. Qed.
Example C141_crash_example : match run init [Call (U 0) (KGo 5); Step (U 0); Step (U 0); End (G 0) true; Call (G 0) KCheck; Step (G 0); Step (G 0); HookPanic (G 0)] with Some s => crashed s = true | None => False end.
Proof. vm_compute. reflexivity. Qed.
Example C141_finish_example : match run init [Call (U 0) (KGo 5); Step (U 0); Step (U 0); Call (G 0) (KGo 6); Call (U 1) KCheck] with
  | Some s => crashed s = false /\ stack s (G 0) = [FGo 6; FRun 5] /\ stack s (U 1) = [FCheck] /\ lock s = None | None => False end.
Proof. vm_compute. repeat split. Qed.
Example C141_go_example : match run init [Call (U 0) (KGo 5); Step (U 0); Step (U 0); Call (G 0) (KGo 6); Step (G 0)] with
  | Some s => stack s (G 0) = [FGoIn 6; FRun 5] /\ match step s (Step (G 0)) with Some s' => stack s' (G 1) = [FRun 6] | None => False end | None => False end.
Proof. vm_compute. repeat split. Qed.
Example C141_hooks_example : match run init [Call (U 0) (KGo 5); Step (U 0); Step (U 0); End (G 0) true] with
  | Some s => stack s (G 0) = [FPanic 5] /\ match step s (Call (G 0) (KGo 7)) with Some s' => stack s' (G 0) = [FGo 7; FPanic 5] | None => False end | None => False end.
Proof. vm_compute. repeat split. Qed.

Print Assumptions C141_lock.
Print Assumptions C141_counts.
Print Assumptions C141_check.
Print Assumptions C141_released.
Print Assumptions C141_stuck.
Print Assumptions C141_crash.
Print Assumptions C141_reentry_refuted.
Print Assumptions C141_full_refuted.
Print Assumptions C141_finish.
Print Assumptions C141_go.
Print Assumptions C141_hooks.
