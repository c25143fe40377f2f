(** C80: test.Case and CurrentT.  C81: must and should checks.  C82: Panic.  C83: Call.  C84: Set. *)
From Verif Require Import Base GlsModel CheckModel CheckSpec CheckProofs.

(** A world in which goroutine 3 runs; goroutine 5 has a test of its own. *)
Definition w0 : world := mkWorld [upd (fun _ => None) testingTType (Some 77)] (ResetGls 5 (Some 0%nat) (fun _ _ => None)) 8.
Definition some_pointer : iface := IVal 900 22 4096.
Definition nil_pointer : iface := IVal 900 22 0.
Definition nil_unsafe : iface := IVal 901 26 0.

(** ** C80 *)

(** A test that calls neither functions made by Case nor functions made by gls.WithGls in its own goroutine runs with
    its t: every check finds t and reports to t.  Whatever it does, afterwards the goroutine has no t. *)
Theorem C80_case_partial : forall g t l w w' e r,
  t <> 0 -> Forall flat l -> Forall ok_stmt l -> g < nextGoid w -> Case g (block g l) t w = (w', e, r) ->
  runs t l (own g e) (ending_of r) /\ GetGls g (maps w') = None.
Proof. exact Case_spec. Qed.
Print Assumptions C80_case_partial.

Definition test1 : list stmt :=
  [SMark 1; SCheck true true (CNotNil some_pointer); SCheck false true (CEqual false);
   SPanic true true [SMark 2; SThrow some_pointer; SMark 3]; SGo false [SCheck true true (CEqual true)];
   SRun 12 [SCheck true true (CEqual false)]; SCheck true true (CNil some_pointer); SMark 4].
Example C80_case_example : Forall flat test1 /\ Forall ok_stmt test1 /\ 3 < nextGoid w0 /\
  (let '(w', e, r) := Case 3 (block 3 test1) 11 w0 in
   own 3 e = [Marks 1; Errors 11 OfAssert; Errors 11 FailedLines; Marks 2; Errors 11 OfAssert; Fatals 11 FailedLines] /\
   r = inr Goexit /\ own 8 e = [Crashes notStarted] /\ own 9 e = [Errors 12 OfAssert; Fatals 12 FailedLines; Ends] /\
   GetGls 3 (maps w') = None /\ GetGls 5 (maps w') = Some 0%nat).
Proof.
  split; [repeat constructor|]. split; [repeat constructor; cbn; lia|]. vm_compute. repeat split.
Qed.

(** The same for goroutines started by a test: t.Run(name, Case(f)) runs f with its own t, go gls.WithGls(f)() with the
    t of the goroutine that starts it. *)
Theorem C80_children : forall g t f w w' e r, t <> 0 -> Forall flat f -> Forall ok_stmt f ->
  (exec g (SRun t f) w = (w', e, r) \/ (hasT g t w /\ exec g (SGo true f) w = (w', e, r))) ->
  exists e' r', runs t f e' r' /\
    own (nextGoid w) e = e' ++ [match r' with Throws v => Crashes v | _ => Ends end] /\ r = inl tt.
Proof.
  intros g t f w w' e r Hn Hf Ho [E|[Ht E]].
  - destruct (run_spec _ _ _ _ _ _ _ Hn Hf Ho E) as (e' & r' & H1 & H2 & H3). exists e', (ending_of r').
    repeat split; auto. rewrite H2. destruct r' as [|[]]; reflexivity.
  - destruct (go_spec _ _ _ _ _ _ _ Hn Hf Ho Ht E) as (e' & r' & H1 & H2 & H3). exists e', (ending_of r').
    repeat split; auto. rewrite H2. destruct r' as [|[]]; reflexivity.
Qed.
Print Assumptions C80_children.
Example C80_children_example : hasT 5 77 w0 /\
  let '(w', e, r) := exec 5 (SGo true [SCheck false true (CEqual false); SMark 6]) w0 in
  own 8 e = [Errors 77 OfAssert; Errors 77 FailedLines; Marks 6; Ends].
Proof. split; [exists 0%nat, (upd (fun _ => None) testingTType (Some 77)); repeat split|]. vm_compute. reflexivity. Qed.

(** A goroutine started without gls.WithGls has no t: the first check that needs it ends the process. *)
Theorem C80_go : forall g w must ok c l, needs_t c -> GetGls (nextGoid w) (maps w) = None ->
  exists w', exec g (SGo false (SCheck must ok c :: l)) w = (w', [(nextGoid w, Crashes notStarted)], inl tt).
Proof.
  intros g w must ok c l Hc Hg. rewrite exec_go. unfold spawn. rewrite block_cons. cbv beta zeta. unfold bind. cbn [exec].
  rewrite (check_none (nextGoid w) must ok c (mkWorld (tables w) (maps w) (nextGoid w + 1)) Hc Hg). eexists. reflexivity.
Qed.
Print Assumptions C80_go.
Example C80_go_example : needs_t (CEqual true) /\ GetGls (nextGoid w0) (maps w0) = None.
Proof. split; [exact Logic.I|reflexivity]. Qed.

(** Whatever a test does, other goroutines keep their t, and no test is left behind in the goroutine. *)
Theorem C80_cleanup : forall g t l w w' e r, g < nextGoid w -> Case g (block g l) t w = (w', e, r) ->
  GetGls g (maps w') = None /\
  (forall h u, h <> g -> h < nextGoid w -> hasT h u w -> hasT h u w').
Proof.
  intros g t l w w' e r Hg E. assert (G : good g w w' e) by (eapply good_Case; [apply good_block|exact Hg|exact E]). split.
  - rewrite Case_withTable in E. unfold withTable in E. destruct (block g l _) as [[w1 e1] r1]. injection E as <- _ _.
    cbn. rewrite GetGls_delete, Z.eqb_refl. reflexivity.
  - intros h u Hh Hn (a & tb & H1 & H2 & H3). destruct G as [A [l' B] _ _]. exists a, tb. rewrite A, B by auto.
    repeat split; auto. rewrite nth_error_app1; [auto|]. apply nth_error_Some. congruence.
Qed.
Print Assumptions C80_cleanup.
Example C80_cleanup_example : 3 < nextGoid w0 /\ hasT 5 77 w0 /\ 5 <> 3.
Proof. split; [cbn; lia|]. split; [exists 0%nat, (upd (fun _ => None) testingTType (Some 77)); repeat split|lia]. Qed.

(** A test that calls a function made by Case itself has no t afterwards: the next check that needs t panics. *)
Theorem C80_nested : forall g t t' f must ok c l w w' e r, needs_t c -> 
  Case g (block g (SCase t' f :: SCheck must ok c :: l)) t w = (w', e, r) ->
  r = inr (Panics notStarted) \/
  exists w1 w2 e2 a, Case g (block g f) t' w1 = (w2, e2, inr a) /\ r = inr a.
Proof.
  intros g t t' f must ok c l w w' e r Hc E. rewrite Case_withTable in E. unfold withTable in E. cbv zeta in E.
  match type of E with context [block g _ ?x] => set (w1 := x) in E end.
  rewrite !block_cons in E. unfold bind in E. rewrite exec_case in E.
  destruct (Case g (block g f) t' w1) as [[w2 e2] [x|a]] eqn:E2.
  - left. assert (Hg : GetGls g (maps w2) = None).
    { rewrite Case_withTable in E2. unfold withTable in E2. destruct (block g f _) as [[w3 e3] r3]. injection E2 as <- _ _.
      cbn. rewrite GetGls_delete, Z.eqb_refl. reflexivity. }
    cbn [exec] in E. rewrite (check_none g must ok c w2 Hc Hg) in E. injection E as _ _ <-. reflexivity.
  - right. exists w1, w2, e2, a. split; [exact E2|]. injection E as _ _ <-. reflexivity.
Qed.
Print Assumptions C80_nested.
Example C80_nested_example : needs_t (CEqual true) /\
  let '(w', e, r) := Case 3 (block 3 [SCase 12 [SMark 1]; SCheck false true (CEqual true); SMark 2]) 11 w0 in
  own 3 e = [Marks 1] /\ r = inr (Panics notStarted).
Proof. split; [exact Logic.I|vm_compute; repeat split]. Qed.

(** So not every test that panics nowhere by itself finds its t. *)
Definition C80_full : Prop := forall g t l w w' e r,
  t <> 0 -> Forall quiet l -> Forall ok_stmt l -> g < nextGoid w -> Case g (block g l) t w = (w', e, r) ->
  r <> inr (Panics notStarted).
Definition test2 : list stmt := [SCase 12 [SMark 1]; SCheck false true (CEqual true)].
Theorem C80_nested_refuted : Forall quiet test2 /\ exists w' e, Case 3 (block 3 test2) 11 w0 = (w', e, inr (Panics notStarted)).
Proof. split; [repeat constructor; lia|]. vm_compute. eauto. Qed.
Print Assumptions C80_nested_refuted.
Theorem C80_full_refuted : ~ C80_full.
Proof.
  intros H. destruct C80_nested_refuted as (Hq & w' & e & E). refine (H 3 11 test2 w0 w' e _ _ Hq _ _ E eq_refl).
  - lia.
  - repeat constructor.
  - cbn. lia.
Qed.
Print Assumptions C80_full_refuted.

(** ** C81 *)

(** A test made of checks and steps: the steps up to the first failing must check are made and no others, t is marked as
    failed exactly if one of the checks made fails, and the test is stopped exactly at a failing must check. *)
Theorem C81_checks : forall g t l its w w' e r,
  t <> 0 -> Forall2 item_of l its -> Forall flat l -> Forall ok_stmt l -> g < nextGoid w -> Case g (block g l) t w = (w', e, r) ->
  steps_of (own g e) = fst (fst (outcome its)) /\
  (fails t (own g e) <-> snd (fst (outcome its)) = true) /\
  ending_of r = (if snd (outcome its) then Exits else Returns).
Proof.
  intros g t l its w w' e r Hn Hi Hf Ho Hg E. eapply outcome_spec; [exact Hi|]. eapply Case_spec; eauto.
Qed.
Print Assumptions C81_checks.
Definition test3 : list stmt :=
  [SMark 1; SCheck false true (CEqual false); SMark 2; SCheck true true (CNil INil); SCheck true true (CPass false [IVal 24 24 5; some_pointer]); SMark 3].
Example C81_checks_example : Forall2 item_of test3 [Step 1; Bad false; Step 2; Good; Bad true; Step 3] /\ Forall flat test3 /\ Forall ok_stmt test3 /\
  outcome [Step 1; Bad false; Step 2; Good; Bad true; Step 3] = ([1; 2], true, true).
Proof.
  split; [|split; [repeat constructor|split; [repeat constructor|reflexivity]]].
  constructor; [constructor|]. constructor; [apply (item_bad false true (CEqual false) 11 [Errors 11 OfAssert]); [discriminate|constructor]|].
  constructor; [constructor|]. constructor; [constructor; cbn; tauto|].
  constructor; [|constructor; [constructor|constructor]].
  apply (item_bad true true (CPass false [IVal 24 24 5; some_pointer]) 11 (repeat (Errors 11 KeyValue) 1)); [discriminate|].
  apply complains_pass; [reflexivity|]. repeat constructor.
Qed.

(** One check: what it says, and when. *)
Theorem C81_check : forall g t must ok c w, t <> 0 -> hasT g t w -> ok_check c ->
  exists e r, runCheck g must ok c w = (w, map (pair g) e, r) /\
    ((holds c /\ e = [] /\ r = inl tt) \/
     (~ holds c /\ exists k, complains t must ok c k /\
        e = k ++ [if must then Fatals t (words ok) else Errors t (words ok)] /\ r = if must then inr Goexit else inl tt) \/
     (~ holds c /\ ok = true /\ trips t must c e /\ r = inr (Panics runtimeError))).
Proof. exact check_spec. Qed.
Print Assumptions C81_check.
Example C81_check_example : hasT 5 77 w0 /\ ok_check (CNil nil_pointer) /\ holds (CNil nil_pointer) /\ ~ holds (CNil some_pointer).
Proof.
  split; [exists 0%nat, (upd (fun _ => None) testingTType (Some 77)); repeat split|]. split; [cbn; unfold dynamic_kind; lia|]. cbn. unfold nilable. cbn. split; [|intuition lia].
  split; [|lia]. split; [tauto|reflexivity].
Qed.

(** A failing check of a list of pairs that is none panics (after reporting the pairs before): the failed lines are not
    shown.  must.Assert alone does not look at the list. *)
Theorem C81_pairs : forall g t w c n must, t <> 0 -> hasT g t w ->
  (exists kv, unpaired kv n /\ (c = CPass false kv \/ (c = CAssert false kv /\ must = false))) ->
  runCheck g must true c w = (w, map (pair g) (repeat (Errors t KeyValue) n), inr (Panics runtimeError)).
Proof.
  intros g t w c n must Hn Ht (kv & Hu & [->|[-> ->]]); [destruct must|]; cbn [runCheck]; unfold mustPass, shouldPass; cbn [negb];
    unfold bind; rewrite (CurrentT_has _ _ _ Hn Ht); cbn [negb]; rewrite (kvLoop_unpaired _ _ _ _ Hu); reflexivity.
Qed.
Print Assumptions C81_pairs.
Example C81_pairs_example : unpaired [IVal 24 24 1; some_pointer; IVal 24 24 2] 1 /\ unpaired [IVal 24 24 1; some_pointer; IVal 77 24 2; some_pointer] 1.
Proof. split; apply unpaired_cons; [apply unpaired_alone|apply unpaired_key; discriminate]. Qed.

(** Nil passes for what is nil, except for the nil unsafe.Pointer. *)
Definition C81_full : Prop := forall g t ok v w, t <> 0 -> hasT g t w -> ok_iface v ->
  (mustNil g ok v w = (w, [], inl tt) <-> is_nil v).
Theorem C81_nil_partial : forall g t ok v w, t <> 0 -> hasT g t w -> ok_iface v ->
  (mustNil g ok v w = (w, [], inl tt) <-> is_nil v /\ ~ unsafe_nil v) /\
  (shouldNil g ok v w = (w, [], inl tt) <-> is_nil v /\ ~ unsafe_nil v) /\
  (mustNotNil g ok v w = (w, [], inl tt) <-> ~ is_nil v \/ unsafe_nil v) /\
  (shouldNotNil g ok v w = (w, [], inl tt) <-> ~ is_nil v \/ unsafe_nil v).
Proof.
  intros g t ok v w Hn Ht Hv. pose proof (CurrentT_has _ _ _ Hn Ht) as HT. rewrite <- (isNil_spec v Hv), <- (isNil_false v Hv).
  unfold mustNil, shouldNil, mustNotNil, shouldNotNil, assertNil, assertNotNil, bind. rewrite HT.
  destruct (isNil v); cbn; destruct ok; cbn; repeat split; intros; try discriminate; reflexivity.
Qed.
Print Assumptions C81_nil_partial.
Theorem C81_unsafe_refuted : is_nil nil_unsafe /\ ok_iface nil_unsafe /\ forall g t ok w, t <> 0 -> hasT g t w ->
  mustNil g ok nil_unsafe w <> (w, [], inl tt) /\ mustNotNil g ok nil_unsafe w = (w, [], inl tt).
Proof.
  split; [cbn; unfold nilable; cbn; tauto|]. split; [cbn; unfold dynamic_kind; lia|]. intros g t ok w Hn Ht.
  assert (Hv : ok_iface nil_unsafe) by (cbn; unfold dynamic_kind; lia).
  destruct (C81_nil_partial g t ok nil_unsafe w Hn Ht Hv) as (A & _ & B & _). split.
  - intros H. apply A in H as [_ H]. apply H. cbn. lia.
  - apply B. right. cbn. lia.
Qed.
Print Assumptions C81_unsafe_refuted.
Theorem C81_full_refuted : ~ C81_full.
Proof.
  intros H. assert (Ht : hasT 5 77 w0) by (exists 0%nat, (upd (fun _ => None) testingTType (Some 77)); repeat split).
  destruct C81_unsafe_refuted as (Hn & Hv & Hu). destruct (Hu 5 77 true w0 ltac:(lia) Ht) as [Hu' _]. apply Hu'.
  apply (H 5 77 true nil_unsafe w0 ltac:(lia) Ht Hv). exact Hn.
Qed.
Print Assumptions C81_full_refuted.

(** ** C82 *)

(** Panic passes, and returns the value of the panic, exactly if f panics with a value that is not nil in the sense of
    assert.NotNil; else it fails: must.Panic stops the test, should.Panic returns the value, unless f was stopped. *)
Theorem C82_panic_partial : forall g t f w w1 e r, t <> 0 -> hasT g t w -> f w = (w1, e, r) ->
  (forall v, r = inr (Panics v) -> ok_iface v) ->
  (forall v, r = inr (Panics v) -> (~ is_nil v \/ unsafe_nil v) ->
     mustPanic g true f w = (w1, e, inl v) /\ shouldPanic g true f w = (w1, e, inl v)) /\
  ((forall v, r = inr (Panics v) -> is_nil v /\ ~ unsafe_nil v) ->
     mustPanic g true f w = (w1, e ++ [(g, Errors t OfAssert); (g, Fatals t FailedLines)], inr Goexit) /\
     shouldPanic g true f w = (w1, e ++ [(g, Errors t OfAssert); (g, Errors t FailedLines)],
       match r with inr (Panics v) => inl v | inr Goexit => inr Goexit | inl _ => inl INil end)).
Proof.
  intros g t f w w1 e r Hn Ht E Hv. rewrite (mustPanic_spec _ _ _ _ _ _ _ Hn Ht E), (shouldPanic_spec _ _ _ _ _ _ _ Hn Ht E). split.
  - intros v -> H. cbn [recovered]. apply (isNil_false v (Hv v eq_refl)) in H. rewrite H. auto.
  - intros H. destruct r as [[]|[v|]]; cbn [recovered]; [auto| |auto].
    specialize (H v eq_refl). apply (isNil_spec v (Hv v eq_refl)) in H. rewrite H. auto.
Qed.
Print Assumptions C82_panic_partial.
Example C82_panic_example : hasT 5 77 w0 /\
  mustPanic 5 true (block 5 [SMark 1; SThrow some_pointer]) w0 = (w0, [(5, Marks 1)], inl some_pointer) /\
  shouldPanic 5 true (block 5 [SMark 1; SExit]) w0 = (w0, [(5, Marks 1); (5, Errors 77 OfAssert); (5, Errors 77 FailedLines)], inr Goexit).
Proof. split; [exists 0%nat, (upd (fun _ => None) testingTType (Some 77)); repeat split|]. split; reflexivity. Qed.

(** Without a caller, f is not called. *)
Theorem C82_no_caller : forall g t f w, t <> 0 -> hasT g t w ->
  mustPanic g false f w = (w, [(g, Fatals t CheckFailed)], inr Goexit) /\
  shouldPanic g false f w = (w, [(g, Errors t CheckFailed)], inl INil).
Proof.
  intros g t f w Hn Ht. unfold mustPanic, shouldPanic, bind. rewrite (CurrentT_has _ _ _ Hn Ht). split; reflexivity.
Qed.
Print Assumptions C82_no_caller.
Example C82_no_caller_example : hasT 5 77 w0.
Proof. exists 0%nat, (upd (fun _ => None) testingTType (Some 77)); repeat split. Qed.

(** Not every function that panics passes: the panic with nil, or with a nil pointer, does not. *)
Definition C82_full : Prop := forall g t f w w1 e r, t <> 0 -> hasT g t w -> f w = (w1, e, r) ->
  ((exists v, r = inr (Panics v)) <-> exists v, mustPanic g true f w = (w1, e, inl v)).
Theorem C82_nil_refuted : forall g t w, t <> 0 -> hasT g t w ->
  (forall v, v = INil \/ v = nil_pointer -> mustPanic g true (block g [SThrow v]) w = (w, [(g, Errors t OfAssert); (g, Fatals t FailedLines)], inr Goexit)).
Proof.
  intros g t w Hn Ht v Hv. rewrite (mustPanic_spec g t _ w w [] (inr (Panics v)) Hn Ht); [|reflexivity].
  destruct Hv as [->| ->]; reflexivity.
Qed.
Print Assumptions C82_nil_refuted.
Theorem C82_full_refuted : ~ C82_full.
Proof.
  intros H. assert (Ht : hasT 5 77 w0) by (exists 0%nat, (upd (fun _ => None) testingTType (Some 77)); repeat split).
  destruct (H 5 77 (block 5 [SThrow nil_pointer]) w0 w0 [] (inr (Panics nil_pointer)) ltac:(lia) Ht eq_refl) as [A _].
  destruct (A (ex_intro _ _ eq_refl)) as [v Hv]. rewrite (C82_nil_refuted 5 77 w0 ltac:(lia) Ht nil_pointer (or_intror eq_refl)) in Hv. discriminate.
Qed.
Print Assumptions C82_full_refuted.

(** ** C83 *)

(** Types for the examples: 1 int, 2 error, 3 *E (an error type), 4 []int, 5 interface{}, 6 []interface{}, 7 *int, 8 *error. *)
Definition xKind (ty : Z) : Z :=
  if ty =? 1 then 2 else if (ty =? 2) || (ty =? 5) then 20 else if (ty =? 4) || (ty =? 6) then 23 else 22.
Definition xElem (ty : Z) : Z := if ty =? 4 then 1 else if ty =? 6 then 5 else if ty =? 7 then 1 else if ty =? 8 then 2 else 0.
Definition xError (ty : Z) : bool := (ty =? 2) || (ty =? 3).
Definition xAssignable (ty pty : Z) : bool := (ty =? pty) || (pty =? 5) || ((pty =? 2) && xError ty).
Definition int_of (n : Z) : iface := IVal 1 2 n.
(** func(int, error) ( *E, error ): returns its arguments *)
Definition xf : func := mkFunc [1; 3] false [1; 3] (fun fixed _ => ret fixed).
(** func(int, ...int) (int) *)
Definition xv : func := mkFunc [1; 4] true [1] (fun fixed extra => ret (fixed ++ extra)).

(** must.Call calls f with the given arguments, nil standing for the zero value of the parameter, if there are as many
    as parameters and they are assignable; otherwise it panics and f is not called.  For a variadic function this holds
    as long as none of the variadic arguments is nil. *)
Theorem C83_must_partial : forall assignable implementsError kindOf elemOf,
  (forall ty, assignable ty ty = true) ->
  forall g ok f args, wf_func f -> Forall (wf_iface kindOf) args ->
  (variadic f = true -> no_variadic_nil f args) ->
  (forall fixed extra, sees assignable kindOf elemOf (given_or_zero assignable kindOf) f args fixed extra ->
     forall w, mustCall assignable implementsError kindOf elemOf g ok f args w =
     bind (body f fixed extra) (callResult implementsError kindOf g ok (fun t x => tFatal g t x)) w) /\
  ((forall fixed extra, ~ sees assignable kindOf elemOf (given_or_zero assignable kindOf) f args fixed extra) ->
     forall w, mustCall assignable implementsError kindOf elemOf g ok f args w = (w, [], inr (Panics runtimeError))).
Proof. intros. apply mustCall_spec; auto. Qed.
Print Assumptions C83_must_partial.
Example C83_must_example : (forall ty, xAssignable ty ty = true) /\ wf_func xf /\ Forall (wf_iface xKind) [int_of 7; INil] /\
  sees xAssignable xKind xElem (given_or_zero xAssignable xKind) xf [int_of 7; INil] [RVal 1 7; RVal 3 0] [] /\
  mustCall xAssignable xError xKind xElem 5 true (mkFunc [1; 3] false [1] (fun fixed _ => ret (firstn 1 fixed))) [int_of 7; INil] w0 = (w0, [], inl [int_of 7]) /\
  mustCall xAssignable xError xKind xElem 5 true xf [int_of 7] w0 = (w0, [], inr (Panics runtimeError)).
Proof.
  split; [intros ty; unfold xAssignable; now rewrite Z.eqb_refl|]. split; [intros H; discriminate|]. split; [repeat constructor|].
  split; [|split; reflexivity]. unfold sees. cbn. repeat split. constructor.
  - left. apply given_data; [reflexivity|discriminate].
  - constructor; [|constructor]. right. split; [reflexivity|]. right. split; [discriminate|reflexivity].
Qed.

(** should.Call does so only without nil: any nil argument makes it panic. *)
Theorem C83_should_partial : forall assignable implementsError kindOf elemOf,
  (forall ty, assignable ty ty = true) ->
  forall g ok f args, wf_func f -> Forall (wf_iface kindOf) args ->
  (forall fixed extra, sees assignable kindOf elemOf (given assignable kindOf) f args fixed extra ->
     forall w, shouldCall assignable implementsError kindOf elemOf g ok f args w =
     bind (body f fixed extra) (callResult implementsError kindOf g ok (tError g)) w) /\
  ((forall fixed extra, ~ sees assignable kindOf elemOf (given assignable kindOf) f args fixed extra) ->
     forall w, shouldCall assignable implementsError kindOf elemOf g ok f args w = (w, [], inr (Panics runtimeError))).
Proof. intros. apply shouldCall_spec; auto. Qed.
Print Assumptions C83_should_partial.
Example C83_should_example : wf_func xv /\ Forall (wf_iface xKind) [int_of 1; int_of 2; int_of 3] /\
  sees xAssignable xKind xElem (given xAssignable xKind) xv [int_of 1; int_of 2; int_of 3] [RVal 1 1] [RVal 1 2; RVal 1 3] /\
  shouldCall xAssignable xError xKind xElem 5 true xv [int_of 1; int_of 2; int_of 3] w0 = (w0, [], inl [int_of 1; int_of 2; int_of 3]).
Proof.
  split; [intros _; discriminate|]. split; [repeat constructor|]. split; [|reflexivity]. unfold sees. cbn.
  exists [1], 4, [int_of 1], [int_of 2; int_of 3]. repeat split; repeat constructor; discriminate.
Qed.

(** The full claim, for both: a nil stands for the zero value of its parameter (or of the element type of the variadic
    parameter). *)
Definition C83_full (Call : forall (assignable : Z -> Z -> bool) (implementsError : Z -> bool) (kindOf elemOf : Z -> Z), Z -> bool -> func -> list iface -> comp (list iface)) : Prop :=
  forall assignable implementsError kindOf elemOf, (forall ty, assignable ty ty = true) ->
  forall g ok f fixed extra, wf_func f -> forall args, Forall (wf_iface kindOf) args ->
  forall a1 a2, args = a1 ++ a2 -> List.length a1 = fixedN f -> (variadic f = false -> a2 = []) ->
  Forall2 (fun p x => given_or_zero assignable kindOf (fst p) (snd p) x) (combine (firstn (fixedN f) (params f)) a1) fixed ->
  Forall2 (given_or_zero assignable kindOf (elemOf (nth (fixedN f) (params f) 0))) a2 extra ->
  forall w w' e rs, body f fixed extra w = (w', e, inl rs) -> Call assignable implementsError kindOf elemOf g ok f args w <> (w, [], inr (Panics runtimeError)).
Theorem C83_should_nil : forall assignable implementsError kindOf elemOf g ok f args w, In INil args ->
  shouldCall assignable implementsError kindOf elemOf g ok f args w = (w, [], inr (Panics runtimeError)).
Proof.
  intros assignable implementsError kindOf elemOf g ok f args w H. unfold shouldCall, bind. rewrite reflectCall_invalid; [reflexivity|]. apply in_map_iff. exists INil. auto.
Qed.
Print Assumptions C83_should_nil.
Example C83_should_nil_example : In INil [int_of 7; INil].
Proof. right. left. reflexivity. Qed.
Theorem C83_variadic_nil_refuted : mustCall xAssignable xError xKind xElem 5 true xv [int_of 1; INil] w0 = (w0, [], inr (Panics runtimeError)) /\
  mustCall xAssignable xError xKind xElem 5 true xv [int_of 1; int_of 2; INil] w0 = (w0, [], inr (Panics runtimeError)).
Proof. split; reflexivity. Qed.
Print Assumptions C83_variadic_nil_refuted.
(** ... and a nil for the first of the arguments ...interface{} arrives as a nil []interface{}, which is not nil. *)
Theorem C83_variadic_any_refuted : forall w,
  mustCall xAssignable xError xKind xElem 5 true (mkFunc [6] true [5] (fun _ extra => ret extra)) [INil] w = (w, [], inl [IVal 6 23 0]).
Proof. reflexivity. Qed.
Print Assumptions C83_variadic_any_refuted.
Theorem C83_full_refuted : ~ C83_full mustCall /\ ~ C83_full shouldCall.
Proof.
  split; intros H.
  - refine (H xAssignable xError xKind xElem _ 5 true xv [RVal 1 1] [RVal 1 0] _ [int_of 1; INil] _ [int_of 1] [INil] eq_refl eq_refl _ _ _ w0 w0 [] [RVal 1 1; RVal 1 0] eq_refl _).
    + intros ty. unfold xAssignable. now rewrite Z.eqb_refl.
    + intros _. discriminate.
    + repeat constructor.
    + discriminate.
    + constructor; [|constructor]. left. apply given_data; [reflexivity|discriminate].
    + constructor; [|constructor]. right. split; [reflexivity|]. right. split; [discriminate|reflexivity].
    + reflexivity.
  - refine (H xAssignable xError xKind xElem _ 5 true xf [RVal 1 1; RVal 3 0] [] _ [int_of 1; INil] _ [int_of 1; INil] [] eq_refl eq_refl _ _ _ w0 w0 [] [RVal 1 1; RVal 3 0] eq_refl _).
    + intros ty. unfold xAssignable. now rewrite Z.eqb_refl.
    + intros V. discriminate.
    + repeat constructor.
    + reflexivity.
    + constructor; [left; apply given_data; [reflexivity|discriminate]|]. constructor; [|constructor]. right. split; [reflexivity|]. right. split; [discriminate|reflexivity].
    + constructor.
    + reflexivity.
Qed.
Print Assumptions C83_full_refuted.

(** After f returned: the results are returned and nothing is reported, unless the last result is an error that is not
    nil as an interface; must.Call then stops the test, should.Call reports and returns the results. *)
Theorem C83_result_partial : forall implementsError kindOf g t ok rs w, t <> 0 -> hasT g t w -> wf_results rs ->
  (~ error_result implementsError rs ->
     callResult implementsError kindOf g ok (fun t x => tFatal g t x) rs w = (w, [], inl (map (Interface kindOf) rs)) /\
     callResult implementsError kindOf g ok (tError g) rs w = (w, [], inl (map (Interface kindOf) rs))) /\
  (error_result implementsError rs ->
     callResult implementsError kindOf g ok (fun t x => tFatal g t x) rs w = (w, [(g, Errors t OfAssert); (g, Fatals t (words ok))], inr Goexit) /\
     callResult implementsError kindOf g ok (tError g) rs w = (w, [(g, Errors t OfAssert); (g, Errors t (words ok))], inl (map (Interface kindOf) rs))).
Proof.
  intros implementsError kindOf g t ok rs w Hn Ht Hw. split; intros He.
  - split; eapply callResult_none; eauto.
  - split.
    + rewrite (callResult_error implementsError kindOf (fun x => x) g ok (fun t x => tFatal g t x) rs w He t Hn Ht w [(g, Fatals t (words ok))] (inr Goexit) eq_refl). reflexivity.
    + rewrite (callResult_error implementsError kindOf (fun x => x) g ok (tError g) rs w He t Hn Ht w [(g, Errors t (words ok))] (inl tt) eq_refl). reflexivity.
Qed.
Print Assumptions C83_result_partial.
Example C83_result_example : hasT 5 77 w0 /\ wf_results [RVal 1 3; RIface 2 (IVal 3 22 9)] /\ error_result xError [RVal 1 3; RIface 2 (IVal 3 22 9)] /\
  ~ error_result xError [RVal 1 3; RIface 2 INil].
Proof.
  split; [exists 0%nat, (upd (fun _ => None) testingTType (Some 77)); repeat split|]. split; [repeat constructor; discriminate|]. split.
  - exists [RVal 1 3], (RIface 2 (IVal 3 22 9)). repeat split. discriminate.
  - intros (rs' & r & E & H). assert (E' := app_inj_tail [RVal 1 3] rs' (RIface 2 INil) r E). destruct E' as [_ <-]. destruct H. congruence.
Qed.

(** A function whose last result type is no error type needs no test. *)
Theorem C83_no_error : forall implementsError kindOf g ok report rs w, (forall rs' r, rs = rs' ++ [r] -> implementsError (typeOf r) = false) ->
  callResult implementsError kindOf g ok report rs w = (w, [], inl (map (Interface kindOf) rs)).
Proof. intros. now apply callResult_no_t. Qed.
Print Assumptions C83_no_error.
Example C83_no_error_example : forall rs' r, [RVal 2 1; RVal 1 3] = rs' ++ [r] -> xError (typeOf r) = false.
Proof. intros rs' r E. assert (E' := app_inj_tail [RVal 2 1] rs' (RVal 1 3) r E). destruct E' as [_ <-]. reflexivity. Qed.

(** A nil pointer is taken for an error: a function with result type *E that returns nil fails. *)
Definition C83_result_full : Prop := forall implementsError kindOf g t ok rs w, t <> 0 -> hasT g t w -> wf_results rs ->
  (~ real_error implementsError kindOf rs <->
     callResult implementsError kindOf g ok (fun t x => tFatal g t x) rs w = (w, [], inl (map (Interface kindOf) rs))).
Theorem C83_typed_nil_refuted : ~ real_error xError xKind [RVal 3 0] /\ forall g t ok w, t <> 0 -> hasT g t w ->
  callResult xError xKind g ok (fun t x => tFatal g t x) [RVal 3 0] w = (w, [(g, Errors t OfAssert); (g, Fatals t (words ok))], inr Goexit).
Proof.
  split.
  - intros (rs' & r & E & H). assert (E' := app_inj_tail [] rs' (RVal 3 0) r E). destruct E' as [_ <-]. destruct H as [_ H]. apply H. split; [unfold nilable; cbn; tauto|reflexivity].
  - intros g t ok w Hn Ht. apply (C83_result_partial xError xKind g t ok [RVal 3 0] w Hn Ht); [repeat constructor; discriminate|].
    exists [], (RVal 3 0). split; reflexivity.
Qed.
Print Assumptions C83_typed_nil_refuted.
Theorem C83_result_full_refuted : ~ C83_result_full.
Proof.
  intros H. assert (Ht : hasT 5 77 w0) by (exists 0%nat, (upd (fun _ => None) testingTType (Some 77)); repeat split).
  destruct C83_typed_nil_refuted as [A B]. destruct (H xError xKind 5 77 true [RVal 3 0] w0 ltac:(lia) Ht ltac:(repeat constructor; discriminate)) as [H1 _].
  specialize (H1 A). rewrite (B 5 77 true w0 ltac:(lia) Ht) in H1. discriminate.
Qed.
Print Assumptions C83_result_full_refuted.

(** ** C84 *)

(** Set stores the results in the variables one after the other, up to the first that cannot be stored, at which it
    panics: no result left, no pointer or a nil one, a nil result, or a result of a type that is not assignable. *)
Theorem C84_set_partial : forall assignable kindOf elemOf rs objs m, Forall (wf_iface kindOf) rs ->
  exists l b, writes assignable kindOf elemOf objs rs l b /\
    snd (Set_ assignable kindOf elemOf rs objs m) = b /\
    forall p, fst (Set_ assignable kindOf elemOf rs objs m) p = match last_write p l with Some x => x | None => m p end.
Proof.
  intros assignable kindOf elemOf rs objs m Hw. destruct (SetLoop_spec assignable kindOf elemOf objs rs rs m Hw) as (l & b & W & E).
  exists l, b. unfold Set_. rewrite (E 0%nat eq_refl). split; [exact W|]. split; [reflexivity|]. intros p. apply fold_upd.
Qed.
Print Assumptions C84_set_partial.
Definition m0 : store := fun _ => RVal 1 0.
Example C84_set_example : Forall (wf_iface xKind) [int_of 7; IVal 3 22 9] /\
  writes xAssignable xKind xElem [IVal 7 22 100; IVal 8 22 200] [int_of 7; IVal 3 22 9] [(100, RVal 1 7); (200, RIface 2 (IVal 3 22 9))] false /\
  writes xAssignable xKind xElem [IVal 7 22 100; IVal 8 22 200] [int_of 7; INil] [(100, RVal 1 7)] true.
Proof.
  split; [repeat constructor|]. split.
  - constructor; [constructor; [lia|constructor; [reflexivity|discriminate]]|]. constructor; [constructor; [lia|constructor; reflexivity]|]. constructor.
  - constructor; [constructor; [lia|constructor; [reflexivity|discriminate]]|]. apply writes_not. intros p x H. inversion H; subst. eapply given_nil; eauto.
Qed.

(** Set panics for a result that is nil, such as the error of a call without error. *)
Definition C84_full : Prop := forall assignable kindOf elemOf, (forall ty, assignable ty ty = true) ->
  forall rs objs m, Forall (wf_iface kindOf) rs -> List.length objs = List.length rs ->
  Forall2 (fun o r => exists pty p, o = IVal pty 22 p /\ p <> 0 /\ exists x, given_or_zero assignable kindOf (elemOf pty) r x) objs rs ->
  snd (Set_ assignable kindOf elemOf rs objs m) = false.
Theorem C84_nil_result : forall assignable kindOf elemOf rs1 rs2 o1 o o2 m, List.length o1 = List.length rs1 ->
  snd (Set_ assignable kindOf elemOf (rs1 ++ INil :: rs2) (o1 ++ o :: o2) m) = true.
Proof.
  intros assignable kindOf elemOf rs1 rs2 o1 o o2 m Hl. unfold Set_.
  assert (G : forall done i m, nth_error done (i + List.length o1) = Some INil -> snd (SetLoop assignable kindOf elemOf done i (o1 ++ o :: o2) m) = true).
  { clear. induction o1 as [|a o1 IH]; intros done i m H; cbn [app SetLoop].
    - destruct o as [|ty k p]; [reflexivity|]. destruct (negb (k =? KPtr)); [reflexivity|]. rewrite Nat.add_0_r in H. rewrite H. destruct (p =? 0); reflexivity.
    - destruct a as [|ty k p]; [reflexivity|]. destruct (negb (k =? KPtr)); [reflexivity|]. destruct (nth_error done i) as [v|]; [|reflexivity].
      destruct (p =? 0); [reflexivity|]. destruct (ValueOf v); [reflexivity| |]; (destruct (assignable _ _); [|reflexivity]); apply IH; cbn in *; now rewrite <- plus_n_Sm in H. }
  apply G. cbn. rewrite Hl, nth_error_app2, Nat.sub_diag by lia. reflexivity.
Qed.
Print Assumptions C84_nil_result.
Theorem C84_nil_refuted : snd (Set_ xAssignable xKind xElem [int_of 7; INil] [IVal 7 22 100; IVal 8 22 200] m0) = true.
Proof. reflexivity. Qed.
Print Assumptions C84_nil_refuted.
Theorem C84_full_refuted : ~ C84_full.
Proof.
  intros H. assert (E : snd (Set_ xAssignable xKind xElem [int_of 7; INil] [IVal 7 22 100; IVal 8 22 200] m0) = false).
  { apply H; [intros ty; unfold xAssignable; now rewrite Z.eqb_refl|repeat constructor|reflexivity|].
    constructor; [exists 7, 100; repeat split; [lia|]; exists (RVal 1 7); left; constructor; [reflexivity|discriminate]|].
    constructor; [|constructor]. exists 8, 200. repeat split; [lia|]. exists (RIface 2 INil). right. split; [reflexivity|]. left. split; reflexivity. }
  rewrite C84_nil_refuted in E. discriminate.
Qed.
Print Assumptions C84_full_refuted.
