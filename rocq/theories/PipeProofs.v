From Verif Require Import Base RotationModel PipeSpec.
From Verif Require AsyncModel AsyncSpec LumberModel LumberSpec.

Section Proofs.
  Variable B : bool.
  Variable n : nat.
  Variable name : bytes.
  Variable max : Z.
  Variable backup : bytes -> bytes.
  Variable gzip : bytes -> bytes.
  Notation step := (step B n name max backup gzip).
  Notation run := (run B n name max backup gzip).
  Notation astep := (AsyncModel.step B n).
  Notation arun := (AsyncModel.run B n).
  Notation lstep := (LumberModel.step name max backup gzip).
  Notation lrun := (LumberModel.run name max backup gzip).

  (** One step of the pipe is at most one step of either side *)
  Lemma step_async : forall s e s' o, step s e = Some (s', o) -> e <> PCrash -> arun (pw s) (asyncs [e]) = Some (pw s').
  Proof.
    intros s e s' o E N. unfold asyncs. cbn [flat_map]. destruct e as [e|rec a a' fails r|fails|a|e|]; cbn [PipeModel.step app] in E |- *.
    - destruct (astep (pw s) e) as [w|] eqn:A; destruct e; cbn [AsyncModel.run] in *; try discriminate E; rewrite ?A; try rewrite A in E; injection E as <- _; reflexivity.
    - destruct (LumberModel.Write name max backup (pl s) rec a a' fails) as [l o']. destruct (sameResult (resultOf o') r); [|discriminate E].
      cbn [AsyncModel.run]. destruct (astep (pw s) (AsyncModel.GWrite rec r)) as [w|]; [|discriminate E]. injection E as <- _. reflexivity.
    - cbn [AsyncModel.run]. destruct (astep (pw s) AsyncModel.CloseEnd) as [w|]; [|discriminate E]. injection E as <- _. reflexivity.
    - destruct (LumberModel.rotate name backup (pl s) a) as [[l err] o']. injection E as <- _. reflexivity.
    - destruct e; try discriminate E; destruct (LumberModel.step name max backup gzip (pl s) _) as [l o'] in E; injection E as <- _; reflexivity.
    - congruence.
  Qed.
  Lemma step_lumber : forall s e s' o, step s e = Some (s', o) -> lrun (pl s) (lumbers [e]) = (pl s', o).
  Proof.
    intros s e s' o E. unfold lumbers. cbn [flat_map]. destruct e as [e|rec a a' fails r|fails|a|e|]; cbn [PipeModel.step app] in E |- *.
    - destruct (astep (pw s) e) as [w|] eqn:A; destruct e; cbn [LumberModel.run] in *; try discriminate E; try rewrite A in E; injection E as <- <-; reflexivity.
    - cbn [LumberModel.run LumberModel.step]. destruct (LumberModel.Write name max backup (pl s) rec a a' fails) as [l o']. destruct (sameResult (resultOf o') r); [|discriminate E].
      destruct (astep (pw s) (AsyncModel.GWrite rec r)) as [w|]; [|discriminate E]. injection E as <- <-. now rewrite app_nil_r.
    - cbn [LumberModel.run LumberModel.step]. destruct (astep (pw s) AsyncModel.CloseEnd) as [w|]; [|discriminate E]. injection E as <- <-. reflexivity.
    - cbn [LumberModel.run LumberModel.step]. destruct (LumberModel.rotate name backup (pl s) a) as [[l err] o']. injection E as <- <-. now rewrite app_nil_r.
    - destruct e; try discriminate E; cbn [LumberModel.run]; destruct (LumberModel.step name max backup gzip (pl s) _) as [l o'] in E |- *; injection E as <- <-; now rewrite app_nil_r.
    - injection E as <- <-. reflexivity.
  Qed.
  Lemma lrun_app : forall a b s, lrun s (a ++ b) = let '(s1, o1) := lrun s a in let '(s2, o2) := lrun s1 b in (s2, o1 ++ o2).
  Proof.
    induction a as [|e a IH]; intros b s; cbn [app LumberModel.run].
    - destruct (lrun s b). reflexivity.
    - destruct (lstep s e) as [s1 o1]. rewrite IH. destruct (lrun s1 a) as [s2 o2]. destruct (lrun s2 b) as [s3 o3]. now rewrite app_assoc.
  Qed.
  Lemma arun_app : forall a b s, arun s (a ++ b) = match arun s a with Some s' => arun s' b | None => None end.
  Proof. induction a as [|x a IH]; intros b s; cbn [AsyncModel.run app]; [reflexivity|]. destruct (astep s x); [apply IH | reflexivity]. Qed.
  Lemma asyncs_cons : forall e l, asyncs (e :: l) = asyncs [e] ++ asyncs l.
  Proof. intros. unfold asyncs. cbn [flat_map]. now rewrite app_nil_r. Qed.
  Lemma lumbers_cons : forall e l, lumbers (e :: l) = lumbers [e] ++ lumbers l.
  Proof. intros. unfold lumbers. cbn [flat_map]. now rewrite app_nil_r. Qed.
  Lemma asyncs_app : forall a b, asyncs (a ++ b) = asyncs a ++ asyncs b.
  Proof. intros. unfold asyncs. apply flat_map_app. Qed.
  Lemma lumbers_app : forall a b, lumbers (a ++ b) = lumbers a ++ lumbers b.
  Proof. intros. unfold lumbers. apply flat_map_app. Qed.

  Lemma run_lumber : forall l s s' o, run s l = Some (s', o) -> lrun (pl s) (lumbers l) = (pl s', o).
  Proof.
    induction l as [|e l IH]; intros s s' o R; cbn [PipeModel.run] in R; [injection R as <- <-; reflexivity|].
    destruct (step s e) as [[s1 o1]|] eqn:E; [|discriminate R]. cbn [obind] in R. destruct (run s1 l) as [[s2 o2]|] eqn:E2; [|discriminate R]. injection R as <- <-.
    rewrite lumbers_cons, lrun_app, (step_lumber _ _ _ _ E), (IH _ _ _ E2). reflexivity.
  Qed.
  Lemma run_async : forall l s s' o, run s l = Some (s', o) -> alive l -> arun (pw s) (asyncs l) = Some (pw s').
  Proof.
    induction l as [|e l IH]; intros s s' o R A; cbn [PipeModel.run] in R; [injection R as <- <-; reflexivity|].
    destruct (step s e) as [[s1 o1]|] eqn:E; [|discriminate R]. cbn [obind] in R. destruct (run s1 l) as [[s2 o2]|] eqn:E2; [|discriminate R]. injection R as <- <-.
    rewrite asyncs_cons, arun_app, (step_async _ _ _ _ E) by (intros ->; apply A; left; reflexivity). apply (IH _ _ _ E2). intro K. apply A. right. exact K.
  Qed.
  Lemma run_app : forall a b s, run s (a ++ b) = let? (s1, o1) := run s a in let? (s2, o2) := run s1 b in Some (s2, o1 ++ o2).
  Proof.
    induction a as [|e a IH]; intros b s; cbn [app PipeModel.run].
    - cbn [obind]. destruct (run s b) as [[s1 o1]|]; reflexivity.
    - destruct (step s e) as [[s1 o1]|]; cbn [obind]; [|reflexivity]. rewrite IH. destruct (run s1 a) as [[s2 o2]|]; cbn [obind]; [|reflexivity].
      destruct (run s2 b) as [[s3 o3]|]; cbn [obind]; [|reflexivity]. now rewrite app_assoc.
  Qed.

  (** What the goroutine hands over is what the logger is called with *)
  Lemma written_calls : forall l s s' o, run s l = Some (s', o) -> AsyncSpec.written (asyncs l) = LumberSpec.calls (lumbers l).
  Proof.
    induction l as [|e l IH]; intros s s' o R; [reflexivity|]. cbn [PipeModel.run] in R.
    destruct (step s e) as [[s1 o1]|] eqn:E; [|discriminate R]. cbn [obind] in R. destruct (run s1 l) as [[s2 o2]|] eqn:E2; [|discriminate R].
    rewrite asyncs_cons, lumbers_cons. unfold AsyncSpec.written, LumberSpec.calls. rewrite !flat_map_app. fold (AsyncSpec.written (asyncs l)) (LumberSpec.calls (lumbers l)).
    rewrite (IH _ _ _ E2). f_equal. destruct e as [e|rec a a' fails r|fails|a|e|]; try reflexivity.
    - destruct e; try reflexivity. discriminate E.
    - destruct e; try reflexivity; discriminate E.
  Qed.

  (** ** Lives *)
  Lemma lives_not_nil : forall l, lives l <> [].
  Proof. induction l as [|e l IH]; [discriminate|]. destruct e; cbn [lives]; try discriminate; destruct (lives l); discriminate. Qed.
  Lemma lives_cons : forall e l, e <> PCrash -> exists life more, lives l = life :: more /\ lives (e :: l) = (e :: life) :: more.
  Proof.
    intros e l N. destruct (lives l) as [|life more] eqn:L; [destruct (lives_not_nil l L)|]. exists life, more. split; [reflexivity|].
    destruct e; try congruence; cbn [lives]; rewrite L; reflexivity.
  Qed.
  Lemma lives_alive : forall l, Forall alive (lives l).
  Proof.
    induction l as [|e l IH]; [constructor; [intros []|constructor]|]. destruct e as [e|rec a a' fails r|fails|a|e|];
      try (match goal with |- Forall _ (lives (?e :: l)) => destruct (lives_cons e l ltac:(discriminate)) as (life & more & L1 & ->) end;
        rewrite L1 in IH; inversion IH as [|x y Hx Hy]; subst; constructor; [|exact Hy]; intros [K|K]; [discriminate K|exact (Hx K)]).
    cbn [lives]. constructor; [intros []|exact IH].
  Qed.
  Lemma lives_calls : forall l, List.concat (map (fun life => LumberSpec.calls (lumbers life)) (lives l)) = LumberSpec.calls (lumbers l).
  Proof.
    assert (C : forall e l, LumberSpec.calls (lumbers (e :: l)) = LumberSpec.calls (lumbers [e]) ++ LumberSpec.calls (lumbers l)).
    { intros e l. rewrite lumbers_cons. unfold LumberSpec.calls. apply flat_map_app. }
    induction l as [|e l IH]; [reflexivity|]. rewrite (C e l), <- IH. destruct e as [e|rec a a' fails r|fails|a|e|];
      try (match goal with |- context [lives (?e :: l)] => destruct (lives_cons e l ltac:(discriminate)) as (life & more & L1 & ->) end;
        rewrite L1; cbn [map List.concat]; rewrite (C _ life); symmetry; apply app_assoc).
    reflexivity.
  Qed.
  (** Every life is a run from the start of a process *)
  Lemma lives_run : forall l s s' o, run s l = Some (s', o) ->
    match lives l with
    | [] => False
    | life :: more => (exists s1 o1, run s life = Some (s1, o1)) /\ forall x, In x more -> exists f s1 o1, run (start f) x = Some (s1, o1)
    end.
  Proof.
    induction l as [|e l IH]; intros s s' o R; [split; [exists s, []; reflexivity|intros x []]|]. cbn [PipeModel.run] in R.
    destruct (step s e) as [[s1 o1]|] eqn:E; [|discriminate R]. cbn [obind] in R. destruct (run s1 l) as [[s2 o2]|] eqn:E2; [|discriminate R]. specialize (IH _ _ _ E2).
    destruct (match e with PCrash => true | _ => false end) eqn:K.
    - destruct e; try discriminate K. cbn [lives]. split; [exists s, []; reflexivity|]. cbn [PipeModel.step] in E. injection E as <- <-.
      destruct (lives l) as [|life more]; [destruct IH|]. destruct IH as [(s3 & o3 & A) C]. intros x [<-|X]; [|exact (C x X)]. exists (LumberModel.lfs (pl s)), s3, o3. exact A.
    - assert (N : e <> PCrash) by (intros ->; discriminate K). destruct (lives_cons e l N) as (life & more & L1 & L2). rewrite L2. rewrite L1 in IH. destruct IH as [(s3 & o3 & A) C].
      split; [|exact C]. exists s3, (o1 ++ o3). cbn [PipeModel.run]. rewrite E. cbn [obind]. rewrite A. reflexivity.
  Qed.

  (** An event of the async writer among the events *)
  Lemma asyncs_split : forall l a e b, asyncs l = a ++ e :: b -> (forall rec r, e <> AsyncModel.GWrite rec r) -> e <> AsyncModel.CloseEnd ->
    exists x y, l = x ++ PAsync e :: y /\ asyncs x = a /\ asyncs y = b.
  Proof.
    induction l as [|p l IH]; intros a e b E N1 N2; [destruct a; discriminate E|]. rewrite asyncs_cons in E.
    assert (S1 : asyncs [p] = [] \/ exists q, asyncs [p] = [q] /\ (p = PAsync q \/ (exists rec r, q = AsyncModel.GWrite rec r) \/ q = AsyncModel.CloseEnd)).
    { destruct p as [q|rec c c' fails r|fails|c|q|]; cbn; [right; eexists; split; [reflexivity|eauto]..|left; reflexivity|left; reflexivity|left; reflexivity]. }
    destruct S1 as [S1|(q & S1 & K)]; rewrite S1 in E.
    - destruct (IH a e b E N1 N2) as (x & y & -> & A & C). exists (p :: x), y. repeat split; [|exact C]. rewrite asyncs_cons, S1. exact A.
    - cbn [app] in E. destruct a as [|a0 a]; cbn [app] in E.
      + injection E as -> <-. destruct K as [->|[(rec & r & ->)| ->]]; [|destruct (N1 rec r eq_refl)|destruct (N2 eq_refl)]. exists [], l. repeat split.
      + injection E as -> E. destruct (IH a e b E N1 N2) as (x & y & -> & A & C). exists (p :: x), y. repeat split; [|exact C]. rewrite asyncs_cons, S1, A. reflexivity.
  Qed.
  Lemma asyncs_in : forall l e, In e (asyncs l) -> In (PAsync e) l \/ (exists rec a a' fails r, In (PWrite rec a a' fails r) l /\ e = AsyncModel.GWrite rec r) \/
    (exists fails, In (PClose fails) l /\ e = AsyncModel.CloseEnd).
  Proof.
    intros l e I. unfold asyncs in I. apply in_flat_map in I. destruct I as (p & P & Q). destruct p as [q|rec c c' fails r|fails|c|q|]; cbn in Q; try (destruct Q; fail);
      destruct Q as [<-|[]]; [left; exact P|right; left; do 5 eexists; split; [exact P|reflexivity]|right; right; eexists; split; [exact P|reflexivity]].
  Qed.
  (** The logger does not panic *)
  Lemma no_panic : forall l s s' o rec, run s l = Some (s', o) -> ~ In (AsyncModel.GWrite rec AsyncModel.WPanic) (asyncs l).
  Proof.
    induction l as [|e l IH]; intros s s' o rec R; [intros []|]. cbn [PipeModel.run] in R.
    destruct (step s e) as [[s1 o1]|] eqn:E; [|discriminate R]. cbn [obind] in R. destruct (run s1 l) as [[s2 o2]|] eqn:E2; [|discriminate R].
    rewrite asyncs_cons, in_app_iff. intros [K|K]; [|exact (IH _ _ _ rec E2 K)]. destruct e as [e|rc a a' fails r|fails|a|e|]; cbn in K; try (destruct K; fail); destruct K as [K|[]].
    - subst e. discriminate E.
    - injection K as -> ->. cbn [PipeModel.step] in E. destruct (LumberModel.Write name max backup (pl s) rec a a' fails) as [m o']. unfold resultOf in E.
      destruct (last o' (LumberModel.OReturn 0 false)) as [? []| | | |]; discriminate E.
    - discriminate K.
  Qed.
  (** A closed writer has the logger closed *)
  Lemma close_file : forall s fails s' o, step s (PClose fails) = Some (s', o) -> LumberModel.lfile (pl s') = None /\ LumberModel.lfs (pl s') = LumberModel.lfs (pl s) /\ AsyncModel.closed (pw s') = true.
  Proof.
    intros s fails s' o E. cbn [PipeModel.step] in E. destruct (astep (pw s) AsyncModel.CloseEnd) as [w|] eqn:A; [|discriminate E]. injection E as <- <-. cbn [pl pw].
    split; [|split].
    - unfold LumberModel.close. destruct (LumberModel.lfile (pl s)) eqn:L; [reflexivity|exact L].
    - unfold LumberModel.close. destruct (LumberModel.lfile (pl s)); reflexivity.
    - cbn [AsyncModel.step] in A. destruct (AsyncModel.g (pw s)); try discriminate A. destruct (AsyncModel.cancelled (pw s)); [|discriminate A]. injection A as <-. reflexivity.
  Qed.
End Proofs.
