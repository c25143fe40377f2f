(** C135: an async writer in front of a rolling log. *)
From Verif Require Import Base RotationModel RotationSpec PipeSpec PipeProofs.
From Verif Require AsyncModel AsyncSpec AsyncProofs AsyncProps LumberModel LumberSpec LumberProofs LumberProps.
Import AsyncModel(CloseCall, GTimer, GEmpty, GTake, GDone, GTakeLast, Alloc, Change, WCall, WSend, WDrop, WOk, WError, GSelect, GOver).
Import AsyncSpec(prefix, accepted).
Import LumberModel(lfs, lfile, newLogger, backupBase).
Import LumberSpec(lookup, wrote, backups, milled, returned, failures, calls, stats, spares, new_names, fine).

Lemma Forall2_map_same {A B C} (R : B -> C -> Prop) (f : A -> B) (g : A -> C) : forall l, Forall (fun x => R (f x) (g x)) l -> Forall2 R (map f l) (map g l).
Proof. induction 1; constructor; auto. Qed.

Section Claims.
  Variable B : bool.
  Variable n : nat.
  Variables (dir filename : bytes) (max : Z) (gzip : bytes -> bytes).
  Notation name := (dir ++ filename).
  Notation backup := (fun ts => dir ++ backupBase filename ts).
  Notation run := (run B n name max backup gzip).
  Notation step := (step B n name max backup gzip).

  (** What each process hands to the logger are the first of the records it has accepted. *)
  Lemma life_prefix : forall f life s o, alive life -> run (start f) life = Some (s, o) -> prefix (calls (lumbers life)) (accepted (asyncs life)).
  Proof.
    intros f life s o A R. rewrite <- (written_calls _ _ _ _ _ _ _ _ _ _ R). apply (AsyncProps.C27_in_order B n _ (pw s)). exact (run_async _ _ _ _ _ _ _ _ _ _ R A).
  Qed.

  (** For every interleaving of callers, goroutine, mill and rotations, with crashes anywhere and whatever the operating system answers: the logger is
      called with the first records that the first process has accepted, then with the first ones of the second process, and so on; of each of them it
      has written what it returned, and all of it if it returned no error. *)
  Theorem C135_records : forall f l s o, run (start f) l = Some (s, o) ->
    exists ps, Forall2 (fun p life => prefix p (accepted (asyncs life))) ps (lives l) /\
      List.length (returned o) = List.length (List.concat ps) /\
      List.concat (wrote o) = List.concat (map (fun x => firstn (fst (snd x)) (fst x)) (combine (List.concat ps) (returned o))) /\
      Forall (fun x => snd (snd x) = false -> fst (snd x) = List.length (fst x)) (combine (List.concat ps) (returned o)) /\
      (failures o = [] -> wrote o = List.concat ps).
  Proof.
    intros f l s o R. exists (map (fun life => calls (lumbers life)) (lives l)). rewrite lives_calls.
    pose proof (run_lumber _ _ _ _ _ _ _ _ _ _ R) as L. cbn [start pl] in L. destruct (LumberProps.C40_returns dir filename max gzip f _ _ _ L) as (R1 & R2 & R3 & R4).
    split; [|split; [exact R1|split; [exact R2|split; [|exact R4]]]].
    - rewrite <- (map_id (lives l)) at 2. apply Forall2_map_same. pose proof (lives_alive l) as LA. pose proof (lives_run _ _ _ _ _ _ _ _ _ _ R) as LR.
      apply Forall_forall. intros life I. rewrite Forall_forall in LA. specialize (LA life I). destruct (lives l) as [|l0 more]; [destruct LR|]. destruct LR as [(s1 & o1 & A) C].
      destruct I as [<-|I]; [exact (life_prefix f _ _ _ LA A)|]. destruct (C life I) as (f' & s2 & o2 & Q). exact (life_prefix f' _ _ _ LA Q).
    - apply Forall_forall. intros x I. rewrite Forall_forall in R3. exact (proj2 (R3 x I)).
  Qed.
  (** If the names of the backups are new, os.Stat does not fail for an existing log and the logger reports no failure, then the backups in their order and
      then the log are the log that was there before and these records, each in one piece in one file. *)
  Theorem C135_files : forall f l s o, 0 <= max < 2 ^ 62 -> good_fs f -> Forall stats (lumbers l) -> Forall (spares name) (lumbers l) ->
    new_names name max backup gzip (newLogger f) (lumbers l) -> run (start f) l = Some (s, o) -> failures o = [] ->
    exists ps gs, Forall2 (fun p life => prefix p (accepted (asyncs life))) ps (lives l) /\
      List.concat gs = match lookup f name with Some c => [c] | None => [] end ++ List.concat ps /\
      (forall k p, nth_error (backups o) k = Some p -> In p (milled o) \/ lookup (lfs (pl s)) p = option_map (@List.concat Z) (nth_error gs k)) /\
      (lookup (lfs (pl s)) name = None /\ List.length gs = List.length (backups o) \/
       exists gs' g, gs = gs' ++ [g] /\ List.length gs' = List.length (backups o) /\ lookup (lfs (pl s)) name = Some (List.concat g)).
  Proof.
    intros f l s o M G St Sp Nn R F. destruct (C135_records f l s o R) as (ps & P1 & _ & _ & _ & P5). pose proof (run_lumber _ _ _ _ _ _ _ _ _ _ R) as L. cbn [start pl] in L.
    destruct (LumberProps.C40_files dir filename max gzip f _ _ _ M G St Sp Nn L) as (gs & G1 & G2 & G3 & _). exists ps, gs. rewrite <- (P5 F). auto.
  Qed.

  (** Without errors of the operating system no record up to the maximum fails. *)
  Lemma failures_app : forall a b, failures (a ++ b) = failures a ++ failures b.
  Proof. intros. apply flat_map_app. Qed.
  Lemma failures_returned : forall o, Forall (fun x => snd x = false) (returned o) -> failures o = [].
  Proof.
    induction o as [|x o IH]; intro H; [reflexivity|]. destruct x as [k e| | | |]; try (apply IH; exact H). cbn [returned flat_map app] in H. inversion H as [|u v H1 H2]; subst.
    cbn [snd] in H1. subst e. apply IH. exact H2.
  Qed.
  Theorem C135_no_failure : forall f l s o, run (start f) l = Some (s, o) -> Forall healthy l -> Forall (fun r => lenZ r <= max) (calls (lumbers l)) -> failures o = [].
  Proof.
    intros f l s o. generalize (start f). clear f. revert s o. induction l as [|e l IH]; intros s o s0 R H C; cbn [PipeModel.run] in R; [injection R as <- <-; reflexivity|].
    destruct (step s0 e) as [[s1 o1]|] eqn:E; [|discriminate R]. cbn [obind] in R. destruct (run s1 l) as [[s2 o2]|] eqn:E2; [|discriminate R]. injection R as <- <-.
    inversion H as [|x y H1 H2]; subst. rewrite lumbers_cons in C. unfold calls in C. rewrite flat_map_app in C. apply Forall_app in C. destruct C as [C1 C2].
    rewrite failures_app, (IH _ _ _ E2 H2 C2), app_nil_r. pose proof (step_lumber _ _ _ _ _ _ _ _ _ _ E) as L.
    destruct (match e with PWrite _ _ _ _ _ => true | _ => false end) eqn:K.
    - destruct e as [| rec a a' fails r| | | |]; try discriminate K. destruct H1 as (F1 & F2 & ->). cbn [lumbers flat_map app LumberModel.run LumberModel.step] in L. inversion C1; subst.
      destruct (LumberProps.C39_accepts name max backup (pl s0) rec a a' ltac:(assumption) F1 F2) as [A _].
      destruct (LumberModel.Write name max backup (pl s0) rec a a' None) as [m om]. injection L as _ <-. rewrite app_nil_r. cbn [snd] in A.
      apply failures_returned. rewrite A. repeat constructor.
    - assert (Lr : List.length (returned o1) = 0%nat).
      { destruct (LumberProofs.run_returns name max backup gzip _ _ _ _ L) as [Q _]. rewrite Q. clear - K E. destruct e as [e|rec a a' fails r|fails|a|e|]; try discriminate K; try reflexivity.
        destruct e; try reflexivity; discriminate E. }
      apply failures_returned. destruct (returned o1); [constructor|discriminate Lr].
  Qed.

  (** ** Close *)
  Lemma accepted_app : forall a b w, AsyncModel.run B n AsyncModel.new (a ++ b) = Some w -> prefix (accepted a) (accepted (a ++ b)).
  Proof.
    intros a b. induction b as [|e b IH] using rev_ind; intros w R; [rewrite app_nil_r; exists []; symmetry; apply app_nil_r|].
    rewrite app_assoc in R |- *. rewrite AsyncProofs.run_snoc in R. destruct (AsyncModel.run B n AsyncModel.new (a ++ b)) as [w0|] eqn:E; [|discriminate R].
    rewrite (AsyncProofs.accepted_snoc n _ _ _ (AsyncProofs.inv_run _ _ _ _ E)). destruct (IH w0 eq_refl) as [r ->]. eexists. symmetry. apply app_assoc.
  Qed.
  Lemma closed_over : forall evs w, AsyncModel.run B n AsyncModel.new evs = Some w -> AsyncModel.closed w = true -> AsyncModel.g w = GOver.
  Proof.
    induction evs as [|e evs IH] using rev_ind; intros s R C; [injection R as <-; discriminate C|].
    rewrite AsyncProofs.run_snoc in R. destruct (AsyncModel.run B n AsyncModel.new evs) as [s0|] eqn:E0; [|discriminate R]. specialize (IH s0 eq_refl).
    destruct (AsyncModel.closed s0) eqn:C0; [exact (proj1 (AsyncProofs.over_stays _ _ _ _ _ R (IH eq_refl)))|]. clear IH.
    destruct e as [r|b r|v b r|v|v r| | | | | |r x| |]; cbn [AsyncModel.step] in R;
      repeat match goal with
      | R : match ?x with _ => _ end = Some _ |- _ => destruct x eqn:?; try discriminate R
      end; injection R as <-; cbn [AsyncModel.closed AsyncModel.g] in *; congruence.
  Qed.
  (** When Close has returned and the second was not over: every record accepted before Close was called is in the files, if they are not longer than the
      maximum and the operating system reports no errors. *)
  Theorem C135_close_partial : forall f a b s o, alive (a ++ PAsync CloseCall :: b) -> ~ In (PAsync CloseCall) a -> ~ In (PAsync GTimer) b ->
    run (start f) (a ++ PAsync CloseCall :: b) = Some (s, o) -> AsyncModel.closed (pw s) = true ->
    Forall healthy (a ++ PAsync CloseCall :: b) -> Forall (fun r => lenZ r <= max) (calls (lumbers (a ++ PAsync CloseCall :: b))) ->
    prefix (accepted (asyncs a)) (wrote o).
  Proof.
    intros f a b s o Al Na Nt R C H Sz. pose proof (run_async _ _ _ _ _ _ _ _ _ _ R Al) as A. cbn [start pw] in A.
    assert (W : wrote o = calls (lumbers (a ++ PAsync CloseCall :: b))).
    { pose proof (run_lumber _ _ _ _ _ _ _ _ _ _ R) as L. cbn [start pl] in L. apply (LumberProps.C40_returns dir filename max gzip f _ _ _ L). exact (C135_no_failure f _ _ _ R H Sz). }
    pose proof (closed_over _ _ A C) as Ov.
    assert (Nt' : ~ In GTimer (asyncs (a ++ PAsync CloseCall :: b))).
    { (* the timer runs only after Close was called *)
      rewrite asyncs_app. intro I. apply in_app_or in I. destruct I as [I|I].
      - rewrite asyncs_app in A. pose proof (AsyncProofs.run_app B n (asyncs a) (asyncs (PAsync CloseCall :: b)) AsyncModel.new) as Ra. rewrite Ra in A. clear Ra.
        destruct (AsyncModel.run B n AsyncModel.new (asyncs a)) as [w0|] eqn:E0; [|discriminate A]. clear - E0 I Na.
        assert (Nc : ~ In CloseCall (asyncs a)). { intro K. apply asyncs_in in K. destruct K as [K|[(? & ? & ? & ? & ? & ? & K)|(? & ? & K)]]; [exact (Na K)|discriminate K|discriminate K]. }
        clear Na. revert w0 E0.
        enough (X : forall l, ~ In CloseCall l -> forall w, AsyncModel.run B n AsyncModel.new l = Some w -> ~ In GTimer l /\ AsyncModel.cancelled w = false /\
            match AsyncModel.g w with AsyncModel.GLast | AsyncModel.GLastWriting _ => False | _ => True end)
          by (intros w0 E0; exact (proj1 (X _ Nc _ E0) I)). clear.
        induction l as [|e l IH] using rev_ind; intros N w R; [injection R as <-; repeat split; intros []|].
        rewrite AsyncProofs.run_snoc in R. destruct (AsyncModel.run B n AsyncModel.new l) as [w1|] eqn:E1; [|discriminate R].
        destruct (IH ltac:(intro K; apply N; apply in_or_app; left; exact K) w1 eq_refl) as (T & Ca & Gg). rewrite in_app_iff.
        destruct e as [r|bf r|v bf r|v|v r| | | | | |r x| |]; cbn [AsyncModel.step] in R;
          repeat match goal with
          | R : match ?x with _ => _ end = Some _ |- _ => destruct x eqn:?; try discriminate R
          end; injection R as <-; cbn [AsyncModel.cancelled AsyncModel.g] in *;
          try (exfalso; apply N; apply in_or_app; right; left; reflexivity); try contradiction; try congruence;
          (split; [intros [K|[K|[]]]; [exact (T K)|discriminate K]|split; [exact Ca|auto]]);
          repeat match goal with H : AsyncModel.g _ = _ |- _ => rewrite H in *; clear H end; auto; destruct x; exact Logic.I.
      - apply asyncs_in in I. destruct I as [[I|I]|[(? & ? & ? & ? & ? & ? & K)|(? & ? & K)]]; [discriminate I|exact (Nt I)|discriminate K|discriminate K]. }
    destruct (AsyncProps.C51_close_partial B n _ _ A Ov) as [T|[[r P]|(x & y & E & Q & I)]]; [destruct (Nt' T)|destruct (no_panic _ _ _ _ _ _ _ _ _ _ r R P)|].
    destruct (asyncs_split _ _ _ _ E ltac:(discriminate) ltac:(discriminate)) as (x' & y' & E' & <- & <-).
    assert (Px : exists z, x' = a ++ z).
    { assert (I' : In (PAsync CloseCall) x'). { apply asyncs_in in I. destruct I as [I|[(? & ? & ? & ? & ? & ? & K)|(? & ? & K)]]; [exact I|discriminate K|discriminate K]. }
      clear - E' Na I'. revert x' E' I'. induction a as [|p a IHa]; intros x' E' I'; [exists x'; reflexivity|]. destruct x' as [|q x']; [destruct I'|]. cbn [app] in E'. injection E' as -> E'.
      destruct (IHa ltac:(intro K; apply Na; right; exact K) x' E') as [z ->]; [|exists z; reflexivity]. destruct I' as [K|K]; [destruct Na; left; exact K|exact K]. }
    destruct Px as [z ->]. rewrite W. rewrite E' in R, A |- *. clear E' E. rewrite asyncs_app in A. rewrite (asyncs_app a z) in A, Q. rewrite lumbers_app. unfold calls. rewrite flat_map_app. fold (calls (lumbers (a ++ z))).
    assert (Wr : AsyncSpec.written (asyncs a ++ asyncs z) = calls (lumbers (a ++ z))).
    { rewrite <- asyncs_app. rewrite PipeProofs.run_app in R. destruct (run (start f) (a ++ z)) as [[s1 o1]|] eqn:R1; [|discriminate R]. exact (written_calls _ _ _ _ _ _ _ _ _ _ R1). }
    rewrite <- Wr, <- Q. rewrite AsyncProofs.run_app in A. destruct (AsyncModel.run B n AsyncModel.new (asyncs a ++ asyncs z)) as [w1|] eqn:A1; [|discriminate A].
    destruct (accepted_app _ _ _ A1) as [rest ->]. eexists. symmetry. apply app_assoc.
  Qed.
  Theorem C135_found_partial : forall f a b s o r, 0 <= max < 2 ^ 62 -> good_fs f ->
    let l := a ++ PAsync CloseCall :: b in
    alive l -> ~ In (PAsync CloseCall) a -> ~ In (PAsync GTimer) b -> run (start f) l = Some (s, o) -> AsyncModel.closed (pw s) = true ->
    Forall healthy l -> Forall (fun r => lenZ r <= max) (calls (lumbers l)) ->
    Forall stats (lumbers l) -> Forall (spares name) (lumbers l) -> new_names name max backup gzip (newLogger f) (lumbers l) -> milled o = [] ->
    In r (accepted (asyncs a)) -> exists p c x y, lookup (lfs (pl s)) p = Some c /\ c = x ++ r ++ y.
  Proof.
    intros f a b s o r M G l Al Na Nt R C H Sz St Sp Nn Mi I.
    destruct (C135_close_partial f a b s o Al Na Nt R C H Sz) as [rest Wr].
    pose proof (run_lumber _ _ _ _ _ _ _ _ _ _ R) as L. cbn [start pl] in L. destruct (LumberProps.C40_files dir filename max gzip f _ _ _ M G St Sp Nn L) as (gs & G1 & G2 & G3 & _).
    assert (Ig : In r (List.concat gs)) by (rewrite G1, Wr; apply in_or_app; right; apply in_or_app; left; exact I).
    apply in_concat in Ig. destruct Ig as (g & Gg & Rg). apply In_nth_error in Gg. destruct Gg as [k K].
    assert (X : exists x y, List.concat g = x ++ r ++ y).
    { apply in_split in Rg. destruct Rg as (g1 & g2 & ->). exists (List.concat g1), (List.concat g2). rewrite concat_app. reflexivity. }
    destruct X as (x & y & X). destruct (nth_error (backups o) k) as [p|] eqn:P.
    - exists p, (List.concat g), x, y. split; [|exact X]. destruct (G2 k p P) as [Q|Q]; [rewrite Mi in Q; destruct Q|]. rewrite Q, K. reflexivity.
    - apply nth_error_None in P. destruct G3 as [[_ Lg]|(gs' & gl & -> & Lg & Q)].
      + assert (k < List.length gs)%nat by (apply nth_error_Some; congruence). lia.
      + exists name, (List.concat g), x, y. split; [|exact X]. rewrite Q. rewrite nth_error_app2 in K by lia. assert (Hk : (k - List.length gs')%nat = 0%nat).
        { destruct (k - List.length gs')%nat as [|j]; [reflexivity|]. destruct j; discriminate K. }
        rewrite Hk in K. cbn in K. injection K as ->. reflexivity.
  Qed.
  (** Close of the async writer closes the log; the process writes nothing to it afterwards, and its files change only by rotations and the mill. *)
  Theorem C135_closed : forall f l fails s o more s' o', run (start f) (l ++ [PClose fails]) = Some (s, o) -> alive l -> alive more -> run s more = Some (s', o') ->
    lfile (pl s) = None /\ wrote o' = [].
  Proof.
    intros f l fails s o more s' o' R Al Am M.
    assert (Alc : alive (l ++ [PClose fails])) by (intro K; apply in_app_or in K; destruct K as [K|[K|[]]]; [exact (Al K)|discriminate K]).
    pose proof (run_async _ _ _ _ _ _ _ _ _ _ R Alc) as A. cbn [start pw] in A.
    pose proof (run_lumber _ _ _ _ _ _ _ _ _ _ R) as L. rewrite PipeProofs.run_app in R. destruct (run (start f) l) as [[s1 o1]|] eqn:R1; [|discriminate R]. cbn [obind PipeModel.run] in R.
    destruct (step s1 (PClose fails)) as [[s2 o2]|] eqn:E; [|discriminate R]. cbn [obind] in R. injection R as -> _. destruct (close_file _ _ _ _ _ _ _ _ _ _ E) as (C1 & _ & C3).
    split; [exact C1|]. pose proof (run_async _ _ _ _ _ _ _ _ _ _ M Am) as Am'. pose proof (AsyncProps.C51_nothing_after_partial B n _ _ _ _ A C3 Am') as N.
    rewrite (written_calls _ _ _ _ _ _ _ _ _ _ M) in N. pose proof (run_lumber _ _ _ _ _ _ _ _ _ _ M) as Lm.
    destruct (LumberProofs.run_returns name max backup gzip _ _ _ _ Lm) as (Q1 & _ & _ & Q4). rewrite <- N. apply Q4.
    assert (Le : List.length (returned o') = 0%nat) by (rewrite Q1, N; reflexivity). apply failures_returned. destruct (returned o'); [constructor|discriminate Le].
  Qed.
  (** As long as the goroutine is in its loop and the operating system reports no errors, it can write all that was accepted, with no help from anybody. *)
  Theorem C135_drains : forall f l s o a, run (start f) l = Some (s, o) -> alive l -> AsyncModel.g (pw s) = GSelect -> fine a ->
    Forall (fun r => lenZ r <= max) (accepted (asyncs l)) ->
    exists l' s' o', Forall (fun e => e = PAsync GTake \/ exists rec, e = PWrite rec a a None WOk) l' /\ run (start f) (l ++ l') = Some (s', o ++ o') /\
      accepted (asyncs l) = calls (lumbers l) ++ wrote o' /\ failures o' = [].
  Proof.
    intros f l s o a R Al Gs Fa Sz. pose proof (run_async _ _ _ _ _ _ _ _ _ _ R Al) as A. cbn [start pw] in A. pose proof (AsyncProofs.inv_run _ _ _ _ A) as In_.
    pose proof (AsyncProofs.i_flow _ _ _ In_) as Fl. rewrite (written_calls _ _ _ _ _ _ _ _ _ _ R) in Fl. unfold AsyncProofs.held in Fl. rewrite Gs in Fl. cbn [app] in Fl. rewrite Fl in Sz |- *.
    apply Forall_app in Sz. destruct Sz as [_ Sz]. clear Fl In_ A.
    assert (X : forall q s, AsyncModel.queue (pw s) = q -> AsyncModel.g (pw s) = GSelect -> Forall (fun r => lenZ r <= max) (AsyncProofs.contents (pw s) q) ->
      exists l' s' o', Forall (fun e => e = PAsync GTake \/ exists rec, e = PWrite rec a a None WOk) l' /\ run s l' = Some (s', o') /\ wrote o' = AsyncProofs.contents (pw s) q /\ failures o' = []).
    { clear - Fa. induction q as [|b q IH]; intros s Q G Sz; [exists [], s, []; repeat split; constructor|].
      inversion Sz as [|x y Sz1 Sz2]; subst. set (rec := nth b (AsyncModel.heap (pw s)) []) in *.
      set (w1 := AsyncModel.mkWriter (AsyncModel.heap (pw s)) (AsyncModel.callers (pw s)) q (AsyncModel.GWriting b) (AsyncModel.ws (pw s)) (AsyncModel.cancelled (pw s)) (AsyncModel.closed (pw s))).
      assert (E1 : step s (PAsync GTake) = Some (mkPipe w1 (pl s), [])) by (cbn [PipeModel.step AsyncModel.step]; rewrite G, Q; reflexivity).
      destruct (LumberProps.C39_accepts name max backup (pl s) rec a a Sz1 Fa Fa) as [Rr Rw].
      destruct (LumberModel.Write name max backup (pl s) rec a a None) as [m om] eqn:Wm. cbn [snd] in Rr, Rw.
      set (w2 := AsyncModel.mkWriter (AsyncModel.heap (pw s)) (AsyncModel.callers (pw s)) q GSelect (AsyncModel.ws (pw s)) (AsyncModel.cancelled (pw s)) (AsyncModel.closed (pw s))).
      assert (Fo : failures om = []) by (apply failures_returned; rewrite Rr; repeat constructor).
      assert (Ro : resultOf om = WOk).
      { unfold resultOf. clear - Fo. induction om as [|x om IHo] using rev_ind; [reflexivity|]. rewrite last_last. rewrite failures_app in Fo. apply app_eq_nil in Fo. destruct Fo as [_ Fo].
        destruct x as [k [|]| | | |]; try reflexivity. discriminate Fo. }
      assert (E2 : step (mkPipe w1 (pl s)) (PWrite rec a a None WOk) = Some (mkPipe w2 m, om)).
      { cbn [PipeModel.step pl pw]. rewrite Wm, Ro. cbn [sameResult AsyncModel.step AsyncModel.g w1 AsyncModel.heap]. fold rec. rewrite AsyncProofs.bytes_eqb_refl. reflexivity. }
      destruct (IH (mkPipe w2 m) eq_refl eq_refl Sz2) as (l' & s' & o' & L1 & L2 & L3 & L4).
      exists (PAsync GTake :: PWrite rec a a None WOk :: l'), s', (om ++ o'). split; [|split; [|split]].
      - constructor; [left; reflexivity|]. constructor; [right; exists rec; reflexivity|exact L1].
      - cbn [PipeModel.run]. rewrite E1. cbn [obind]. rewrite E2. cbn [obind]. rewrite L2. reflexivity.
      - unfold wrote. rewrite flat_map_app. fold (wrote om) (wrote o'). rewrite Rw, L3. reflexivity.
      - rewrite failures_app, Fo, L4. reflexivity. }
    destruct (X _ s eq_refl Gs Sz) as (l' & s' & o' & L1 & L2 & L3 & L4). exists l', s', o'. split; [exact L1|]. split; [|split; [now rewrite L3|exact L4]].
    rewrite PipeProofs.run_app, R. cbn [obind]. rewrite L2. reflexivity.
  Qed.
End Claims.

(** * Examples *)
Definition exdir := bs "/d/".
Definition exname := bs "app.log".
Definition exgz (c : bytes) : bytes := bs "gz:" ++ c.
Definition ok (t : string) : LumberModel.answers := LumberModel.mkAnswers false false false false false (bs t) false false false false.
Notation exrun m := (run true 4 (exdir ++ exname) m (fun ts => exdir ++ backupBase exname ts) exgz).
Definition emptyFS : FS := mkFS [] [].
(** Two callers; the second record goes to a new file; a crash with one record in the queue and one half-written; another process goes on *)
Definition ex_first : list event :=
  [PAsync (Alloc (bs "one ")); PAsync (Alloc (bs "two ")); PAsync (WCall 0 0 (bs "one ")); PAsync (WCall 1 1 (bs "two ")); PAsync (WSend 1); PAsync (WSend 0);
   PAsync (Change 0 (bs "last")); PAsync (WCall 2 0 (bs "last")); PAsync (WSend 2);
   PAsync GTake; PWrite (bs "two ") (ok "1") (ok "2") None WOk; PRotate (ok "3"); PAsync GTake; PWrite (bs "one ") (ok "4") (ok "5") None WOk].
Definition ex_second : list event :=
  [PAsync (Alloc (bs "next ")); PAsync (WCall 0 0 (bs "next ")); PAsync (WSend 0); PAsync GTake; PWrite (bs "next ") (ok "6") (ok "7") None WOk;
   PAsync (Change 0 (bs "end ")); PAsync (WCall 1 0 (bs "end ")); PAsync (WSend 1)].
Definition ex_end : list event := [PAsync GDone; PAsync GTakeLast; PWrite (bs "end ") (ok "8") (ok "9") None WOk; PAsync GEmpty; PClose false].
Definition ex_all : list event := ex_first ++ PCrash :: ex_second ++ PAsync CloseCall :: ex_end.
Example C135_records_example : exists s o, exrun 10 (start emptyFS) ex_all = Some (s, o) /\ lives ex_all = [ex_first; ex_second ++ PAsync CloseCall :: ex_end] /\
  accepted (asyncs ex_first) = [bs "two "; bs "one "; bs "last"] /\ wrote o = [bs "two "; bs "one "; bs "next "; bs "end "] /\ AsyncModel.closed (pw s) = true.
Proof. do 2 eexists. split; [vm_compute; reflexivity|]. repeat split; vm_compute; reflexivity. Qed.
Ltac each := repeat (constructor; [vm_compute; try exact Logic.I; auto; repeat split; try discriminate; auto|]); try constructor.
Example C135_files_example : good_fs emptyFS /\ Forall stats (lumbers ex_all) /\ Forall (spares (exdir ++ exname)) (lumbers ex_all) /\
  new_names (exdir ++ exname) 10 (fun ts => exdir ++ backupBase exname ts) exgz (newLogger emptyFS) (lumbers ex_all) /\
  exists s o, exrun 10 (start emptyFS) ex_all = Some (s, o) /\ failures o = [] /\
    map (fun p => lookup (lfs (pl s)) (exdir ++ bs p)) ["app-3.log"; "app-9.log"; "app.log"]%string = [Some (bs "two "); Some (bs "one next "); Some (bs "end ")].
Proof.
  split; [intros p i K; discriminate K|]. split; [each|]. split; [each|]. split; [apply LumberProps.newb_ok; vm_compute; reflexivity|].
  do 2 eexists. split; [vm_compute; reflexivity|]. split; vm_compute; reflexivity.
Qed.
Example C135_no_failure_example : exists s o, exrun 10 (start emptyFS) ex_all = Some (s, o) /\ Forall healthy ex_all /\ Forall (fun r => lenZ r <= 10) (calls (lumbers ex_all)).
Proof. do 2 eexists. split; [vm_compute; reflexivity|]. split; each. Qed.
Definition ex_last : list event := ex_second ++ PAsync CloseCall :: ex_end.
Lemma not_in_dec : forall (p : event -> bool) x l, p x = true -> forallb (fun e => negb (p e)) l = true -> ~ In x l.
Proof. intros p x l P H I. rewrite forallb_forall in H. specialize (H x I). rewrite P in H. discriminate H. Qed.
Example C135_close_example : alive ex_last /\ ~ In (PAsync CloseCall) ex_second /\ ~ In (PAsync GTimer) ex_end /\
  Forall healthy ex_last /\ Forall (fun r => lenZ r <= 10) (calls (lumbers ex_last)) /\
  exists s o, exrun 10 (start emptyFS) ex_last = Some (s, o) /\ AsyncModel.closed (pw s) = true /\ wrote o = [bs "next "; bs "end "] /\ accepted (asyncs ex_second) = wrote o.
Proof.
  split; [apply (not_in_dec (fun e => match e with PCrash => true | _ => false end)); reflexivity|].
  split; [apply (not_in_dec (fun e => match e with PAsync CloseCall => true | _ => false end)); reflexivity|].
  split; [apply (not_in_dec (fun e => match e with PAsync GTimer => true | _ => false end)); reflexivity|].
  split; [each|]. split; [each|]. do 2 eexists. split; [vm_compute; reflexivity|]. repeat split; vm_compute; reflexivity.
Qed.
Example C135_found_example : Forall stats (lumbers ex_last) /\ Forall (spares (exdir ++ exname)) (lumbers ex_last) /\
  new_names (exdir ++ exname) 10 (fun ts => exdir ++ backupBase exname ts) exgz (newLogger emptyFS) (lumbers ex_last) /\
  exists s o, exrun 10 (start emptyFS) ex_last = Some (s, o) /\ milled o = [] /\ lookup (lfs (pl s)) (exdir ++ exname) = Some (bs "next end ").
Proof.
  split; [each|]. split; [each|]. split; [apply LumberProps.newb_ok; vm_compute; reflexivity|]. do 2 eexists. split; [vm_compute; reflexivity|]. split; vm_compute; reflexivity.
Qed.
(** After Close somebody rotates the log, and the mill compresses the backup *)
Example C135_closed_example : exists s o s' o', exrun 10 (start emptyFS) ((ex_second ++ PAsync CloseCall :: removelast ex_end) ++ [PClose false]) = Some (s, o) /\
  exrun 10 s [PAsync (WCall 2 0 (bs "end ")); PAsync (WSend 2); PRotate (ok "a"); PMill (LumberModel.ECompress (exdir ++ bs "app-a.log") LumberModel.Compressed)] = Some (s', o') /\
  map (fun p => lookup (lfs (pl s')) (exdir ++ bs p)) ["app-a.log.gz"; "app.log"]%string = [Some (bs "gz:next end "); Some []].
Proof. do 4 eexists. split; [vm_compute; reflexivity|]. split; vm_compute; reflexivity. Qed.
Example C135_drains_example : exists s o, exrun 10 (start emptyFS) ex_first = Some (s, o) /\ AsyncModel.g (pw s) = GSelect /\ fine (ok "7") /\
  Forall (fun r => lenZ r <= 10) (accepted (asyncs ex_first)) /\ accepted (asyncs ex_first) = [bs "two "; bs "one "; bs "last"] /\ calls (lumbers ex_first) = [bs "two "; bs "one "].
Proof. do 2 eexists. split; [vm_compute; reflexivity|]. split; [reflexivity|]. split; [repeat split|]. split; [each|]. split; vm_compute; reflexivity. Qed.

(** * What does not hold *)
(** When Close has returned, every record accepted before it was called is in some file, if there were no errors and nothing was removed. *)
Definition C135_full : Prop := forall B n dir filename max gzip f a b s o r, 0 <= max < 2 ^ 62 -> good_fs f ->
  let l := a ++ PAsync CloseCall :: b in
  let backup := fun ts => dir ++ backupBase filename ts in
  alive l -> run B n (dir ++ filename) max backup gzip (start f) l = Some (s, o) -> AsyncModel.closed (pw s) = true -> Forall healthy l ->
  Forall stats (lumbers l) -> Forall (spares (dir ++ filename)) (lumbers l) -> new_names (dir ++ filename) max backup gzip (newLogger f) (lumbers l) -> milled o = [] ->
  In r (accepted (asyncs a)) -> exists p c x y, lookup (lfs (pl s)) p = Some c /\ c = x ++ r ++ y.
(** A record longer than MaxSize: Write of the async writer takes it, returning no error; the logger refuses it, and only loglog is told.  What comes after it
    is written. *)
Definition ex_long : list event :=
  [PAsync (Alloc (bs "too long")); PAsync (WCall 0 0 (bs "too long")); PAsync (WSend 0); PAsync (Change 0 (bs "short")); PAsync (WCall 1 0 (bs "short")); PAsync (WSend 1);
   PAsync GTake; PWrite (bs "too long") (ok "1") (ok "2") None WError].
Definition ex_long_end : list event := [PAsync GDone; PAsync GTakeLast; PWrite (bs "short") (ok "3") (ok "4") None WOk; PAsync GEmpty; PClose false].
Theorem C135_long_refuted : exists s o, exrun 6 (start emptyFS) (ex_long ++ PAsync CloseCall :: ex_long_end) = Some (s, o) /\ AsyncModel.closed (pw s) = true /\
  accepted (asyncs ex_long) = [bs "too long"; bs "short"] /\ wrote o = [bs "short"] /\ links (lfs (pl s)) = [(exdir ++ exname, 0%nat)] /\
  lookup (lfs (pl s)) (exdir ++ exname) = Some (bs "short").
Proof. do 2 eexists. split; [vm_compute; reflexivity|]. repeat split; vm_compute; reflexivity. Qed.
(** The second is over before everything is written: the rest of the queue is thrown away. *)
Definition ex_timer_end : list event := [PAsync GDone; PAsync GTakeLast; PWrite (bs "next ") (ok "3") (ok "4") None WOk; PAsync GTimer; PClose false].
Definition ex_queued : list event :=
  [PAsync (Alloc (bs "next ")); PAsync (WCall 0 0 (bs "next ")); PAsync (WSend 0); PAsync (Change 0 (bs "rest")); PAsync (WCall 1 0 (bs "rest")); PAsync (WSend 1)].
Theorem C135_timer_refuted : exists s o, exrun 10 (start emptyFS) (ex_queued ++ PAsync CloseCall :: ex_timer_end) = Some (s, o) /\ AsyncModel.closed (pw s) = true /\
  accepted (asyncs ex_queued) = [bs "next "; bs "rest"] /\ wrote o = [bs "next "] /\ AsyncModel.queue (pw s) <> [] /\ lookup (lfs (pl s)) (exdir ++ exname) = Some (bs "next ").
Proof. do 2 eexists. split; [vm_compute; reflexivity|]. repeat split; try (vm_compute; reflexivity). vm_compute. discriminate. Qed.
Theorem C135_full_refuted : ~ C135_full.
Proof.
  intro H. destruct C135_long_refuted as (s & o & R & C & A & W & Lk & Ct).
  destruct (H true 4%nat exdir exname 6 exgz emptyFS ex_long ex_long_end s o (bs "too long") ltac:(lia) ltac:(intros p i K; discriminate K)) as (p & c & x & y & P & E); try assumption.
  - apply (not_in_dec (fun e => match e with PCrash => true | _ => false end)); reflexivity.
  - each.
  - each.
  - each.
  - apply LumberProps.newb_ok. vm_compute. reflexivity.
  - revert R. vm_compute. intro R. injection R as <- <-. reflexivity.
  - rewrite A. left. reflexivity.
  - assert (Pn : p = exdir ++ exname).
    { unfold lookup in P. rewrite Lk in P. cbn [find option_map] in P. destruct (streq (exdir ++ exname) p) eqn:Q; [|discriminate P]. symmetry. now apply RotationProofs.streq_eq. }
    subst p. rewrite Ct in P. injection P as <-. assert (List.length (bs "short") = List.length (x ++ bs "too long" ++ y)) as Z0 by exact (f_equal (@List.length Z) E).
    rewrite !app_length in Z0. cbn in Z0. lia.
Qed.

Print Assumptions C135_records.
Print Assumptions C135_files.
Print Assumptions C135_no_failure.
Print Assumptions C135_close_partial.
Print Assumptions C135_found_partial.
Print Assumptions C135_closed.
Print Assumptions C135_drains.
Print Assumptions C135_long_refuted.
Print Assumptions C135_timer_refuted.
Print Assumptions C135_full_refuted.
