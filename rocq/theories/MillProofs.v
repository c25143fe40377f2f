From Coq Require Import Permutation Sorted.
From Verif Require Import Base RotationModel RotationSpec RotationProofs LumberModel LumberSpec LumberProofs LumberProps MillModel MillSpec.

Lemma logs_app : forall a b, logs (a ++ b) = logs a ++ logs b.
Proof. intros. apply flat_map_app. Qed.
Lemma asked_app : forall a b, asked (a ++ b) = asked a ++ asked b.
Proof. intros. apply flat_map_app. Qed.
Lemma lists_app : forall a b, lists (a ++ b) = lists a ++ lists b.
Proof. intros. apply flat_map_app. Qed.
Lemma logs_Log : forall o, logs (map Log o) = o.
Proof. induction o as [|x o IH]; [reflexivity|]. cbn. now f_equal. Qed.
Lemma asked_Log : forall o, asked (map Log o) = [].
Proof. induction o as [|x o IH]; [reflexivity|]. exact IH. Qed.
Lemma lists_Log : forall o, lists (map Log o) = [].
Proof. induction o as [|x o IH]; [reflexivity|]. exact IH. Qed.
Lemma lastRead_app : forall a b, lastRead b = None -> lastRead (a ++ b) = lastRead a.
Proof.
  intros a b H. unfold lastRead in *. rewrite fold_left_app. set (f := fun r x => _) in *. generalize (fold_left f a None). intro r.
  assert (Q : forall l r, fold_left f l r = match fold_left f l None with Some x => Some x | None => r end).
  { induction l as [|x l IH]; intro r'; [reflexivity|]. cbn [fold_left]. rewrite (IH (f r' x)), (IH (f None x)). destruct (fold_left f l None); [reflexivity|]. destruct x; reflexivity. }
  rewrite Q, H. reflexivity.
Qed.
Lemma lastRead_one : forall a files now, lastRead (a ++ [Listed files now]) = Some now.
Proof. intros. unfold lastRead. rewrite fold_left_app. reflexivity. Qed.
Lemma lastRead_Log : forall o, lastRead (map Log o) = None.
Proof. intro o. unfold lastRead. induction o as [|x o IH]; [reflexivity|]. exact IH. Qed.
Lemma lastRead_quiet : forall o, lists o = [] -> lastRead o = None.
Proof. intro o. unfold lastRead. induction o as [|x o IH]; [reflexivity|]. intro H. destruct x; try (exact (IH H)); discriminate H. Qed.

Section Proofs.
  Variables (dir filename : bytes) (max : Z) (gzip : bytes -> bytes).
  Variables (parse : bytes -> option Z) (sort : list logInfo -> list logInfo).
  Variables (MaxBackups MaxAge : Z) (Compress : bool).
  Notation mname := (mname dir filename).
  Notation mbackup := (mbackup dir filename).
  Notation stepC := (stepC dir filename max).
  Notation stepM := (stepM dir filename max gzip parse sort MaxBackups MaxAge Compress).
  Notation mstep := (mstep dir filename max gzip parse sort MaxBackups MaxAge Compress).
  Notation mrun := (mrun dir filename max gzip parse sort MaxBackups MaxAge Compress).

  Lemma mrun_app : forall a b s, mrun s (a ++ b) = (fst (mrun (fst (mrun s a)) b), snd (mrun s a) ++ snd (mrun (fst (mrun s a)) b)).
  Proof.
    induction a as [|e a IH]; intros b s; [cbn; now destruct (mrun s b)|]. cbn [app MillModel.mrun]. destruct (mstep s e) as [s1 o1]. rewrite IH. destruct (mrun s1 a) as [s2 o2]. cbn [fst snd].
    destruct (mrun s2 b) as [s3 o3]. cbn [fst snd]. now rewrite app_assoc.
  Qed.
  Lemma mrun_ind : forall (P : st -> list mout -> Prop) s0, P s0 [] -> (forall s o e, P s o -> P (fst (mstep s e)) (o ++ snd (mstep s e))) ->
    forall l, P (fst (mrun s0 l)) (snd (mrun s0 l)).
  Proof.
    intros P s0 H0 H l. assert (G : forall l s o, P s o -> P (fst (mrun s l)) (o ++ snd (mrun s l))).
    { clear l. induction l as [|e l IH]; intros s o Q; [cbn; now rewrite app_nil_r|]. cbn [MillModel.mrun]. specialize (H s o e Q). destruct (mstep s e) as [s1 o1]. cbn [fst snd] in H. specialize (IH _ _ H).
      destruct (mrun s1 l) as [s2 o2]. cbn [fst snd] in *. now rewrite app_assoc. }
    exact (G l s0 [] H0).
  Qed.
  Lemma mrun_ind_ok : forall (ok : mevent -> Prop) (P : st -> list mout -> Prop) s0, P s0 [] -> (forall s o e, ok e -> P s o -> P (fst (mstep s e)) (o ++ snd (mstep s e))) ->
    forall l, Forall ok l -> P (fst (mrun s0 l)) (snd (mrun s0 l)).
  Proof.
    intros ok P s0 H0 H l F. assert (G : forall l, Forall ok l -> forall s o, P s o -> P (fst (mrun s l)) (o ++ snd (mrun s l))).
    { clear l F. induction 1 as [|e l K F IH]; intros s o Q; [cbn; now rewrite app_nil_r|]. cbn [MillModel.mrun]. specialize (H s o e K Q). destruct (mstep s e) as [s1 o1]. cbn [fst snd] in H. specialize (IH _ _ H).
      destruct (mrun s1 l) as [s2 o2]. cbn [fst snd] in *. now rewrite app_assoc. }
    exact (G l F s0 [] H0).
  Qed.

  (** * Steps of a call and of the mill *)

  (** What a step of a call does to the mill: nothing, or it asks *)
  Lemma stepC_mill : forall s e s' o, stepC s e = (s', o) -> crashed s' = crashed s /\ lists o = [] /\
    (smill s' = smill s /\ asked o = [] \/ smill s' = ask (smill s) /\ asked o = [tt] /\ slog s' = slog s).
  Proof.
    intros s e s' o E.
    Ltac fin := match goal with H : _ = (_, _) |- _ => unfold asks in H; injection H as <- <- end; rewrite ?lists_app, ?asked_app, ?lists_Log, ?asked_Log;
      (split; [reflexivity|]); (split; [reflexivity|]); first [left; split; reflexivity | right; split; [reflexivity|split; reflexivity]].
    destruct e; cbn [MillModel.stepC] in E; try fin.
    - destruct (spc s); try fin. destruct (max <? lenZ p); [fin|]. destruct (lfile (slog s)); fin.
    - destruct (spc s); fin.
    - destruct (spc s); fin.
    - destruct (spc s) as [|p a a' fails|p a' fails|p a' fails|p fails|p fails|a|] eqn:P; try fin.
      + destruct (openExistingOrNew mname max mbackup (slog s) a (lenZ p)) as [[l err] o1]. destruct err; fin.
      + destruct (max <? int64 (size (slog s) + lenZ p)); [|fin]. destruct (rotate mname mbackup (slog s) a') as [[l err] o1]. destruct err; fin.
      + destruct (lfile (slog s)) as [x|]; [|fin]. destruct (fileWrite (lfs (slog s)) x match fails with None => p | Some n => firstn n p end) as [f y]. fin.
      + destruct (rotate mname mbackup (slog s) a) as [[l err] o1]. destruct err; fin.
  Qed.
  Lemma mstep_C : forall s e, ~ of_mill e -> crashed s = false -> mstep s e = stepC s e.
  Proof. intros s e N C. unfold MillModel.mstep. rewrite C. destruct e; cbn in N; try reflexivity; tauto. Qed.
  Lemma mstep_M : forall s e, of_mill e -> crashed s = false -> mstep s e = stepM s e.
  Proof. intros s e N C. unfold MillModel.mstep. rewrite C. destruct e; cbn in N; try reflexivity; tauto. Qed.
  Lemma of_mill_dec : forall e, {of_mill e} + {~ of_mill e}.
  Proof. destruct e; cbn; auto. Qed.

  (** A step of the mill, of its only goroutine *)
  Inductive mills (s : st) : mevent -> st -> list mout -> Prop :=
  | Nothing e : mills s e s []
  | Receives k w : workers (smill s) = [Waiting] -> pending (smill s) = true -> w = Awake -> mills s (MReceive k) (mkSt (slog s) (spc s) (mkMill (once (smill s)) false (ended (smill s)) [w]) (noFormat s) (crashed s)) []
  | Ends k : workers (smill s) = [Waiting] -> ended (smill s) = true -> mills s (MReceive k) (mkSt (slog s) (spc s) (mkMill (once (smill s)) false true [Ended]) (noFormat s) (crashed s)) []
  | Off k fails dirs now : workers (smill s) = [Awake] -> MaxBackups = 0 -> MaxAge = 0 -> Compress = false ->
      mills s (MList k fails dirs now) (mkSt (slog s) (spc s) (mkMill (once (smill s)) (pending (smill s)) (ended (smill s)) [Waiting]) (noFormat s) (crashed s)) []
  | Unread k dirs now : workers (smill s) = [Awake] ->
      mills s (MList k true dirs now) (mkSt (slog s) (spc s) (mkMill (once (smill s)) (pending (smill s)) (ended (smill s)) [Waiting]) (noFormat s) (crashed s)) [ListFailed]
  | Panicked k dirs now : workers (smill s) = [Awake] -> millChoice parse sort filename MaxBackups MaxAge Compress now (readDir dir (lfs (slog s)) dirs) = None ->
      mills s (MList k false dirs now) (mkSt (slog s) (spc s) (smill s) (noFormat s) true) [Listed (readDir dir (lfs (slog s)) dirs) now]
  | Chose k dirs now remove compress fm : workers (smill s) = [Awake] -> millChoice parse sort filename MaxBackups MaxAge Compress now (readDir dir (lfs (slog s)) dirs) = Some (remove, compress) ->
      (noFormat s = false -> fm = false) -> ~ (MaxBackups = 0 /\ MaxAge = 0 /\ Compress = false) ->
      mills s (MList k false dirs now) (mkSt (slog s) (spc s) (mkMill (once (smill s)) (pending (smill s)) (ended (smill s)) [going remove compress]) fm (crashed s)) [Listed (readDir dir (lfs (slog s)) dirs) now]
  | Removes k (fails : bool) x remove compress l o : workers (smill s) = [Working (x :: remove) compress] ->
      (if fails then (slog s, []) else step mname max mbackup gzip (slog s) (ERemove (dir ++ Name x))) = (l, o) ->
      mills s (MRemove k fails) (mkSt l (spc s) (mkMill (once (smill s)) (pending (smill s)) (ended (smill s)) [going remove compress]) (noFormat s) (crashed s)) (map Log o)
  | Compresses k c x compress l o : workers (smill s) = [Working [] (x :: compress)] -> step mname max mbackup gzip (slog s) (ECompress (dir ++ Name x) c) = (l, o) ->
      mills s (MCompress k c) (mkSt l (spc s) (mkMill (once (smill s)) (pending (smill s)) (ended (smill s)) [going [] compress]) (noFormat s) (crashed s)) (map Log o).

  Lemma one_worker : forall k (ws : list worker) w, (List.length ws <= 1)%nat -> nth_error ws k = Some w -> k = 0%nat /\ ws = [w].
  Proof. intros k [|v [|u r]] w L N; [destruct k; discriminate N| |cbn in L; lia]. destruct k as [|k]; [injection N as ->; auto|]. destruct k; discriminate N. Qed.
  Lemma stepM_cases : forall s e s' o, (List.length (workers (smill s)) <= 1)%nat -> stepM s e = (s', o) -> mills s e s' o.
  Proof.
    intros s e s' o L E. destruct e; cbn [MillModel.stepM] in E; try (injection E as <- <-; constructor).
    - destruct (nth_error (workers (smill s)) k) as [w|] eqn:N; [|injection E as <- <-; constructor]. destruct (one_worker _ _ _ L N) as [-> W].
      destruct w; try (injection E as <- <-; constructor). destruct (pending (smill s)) eqn:P.
      + injection E as <- <-. unfold setWorker, setMill. cbn [smill workers once ended pending slog spc noFormat crashed]. rewrite W. cbn [firstn skipn app]. now apply Receives.
      + destruct (ended (smill s)) eqn:En; [|injection E as <- <-; constructor]. injection E as <- <-. unfold setWorker, setMill. cbn [smill workers once ended pending slog spc noFormat crashed]. rewrite W, En, P. cbn [firstn skipn app]. now apply Ends.
    - destruct (nth_error (workers (smill s)) k) as [w|] eqn:N; [|injection E as <- <-; constructor]. destruct (one_worker _ _ _ L N) as [-> W].
      destruct w; try (injection E as <- <-; constructor). destruct ((MaxBackups =? 0) && (MaxAge =? 0) && negb Compress) eqn:O.
      + apply andb_prop in O. destruct O as [O O3]. apply andb_prop in O. destruct O as [O1 O2]. apply Z.eqb_eq in O1, O2. apply negb_true_iff in O3.
        injection E as <- <-. unfold setWorker, setMill. rewrite W. cbn [firstn skipn app]. now apply Off.
      + destruct fails.
        * injection E as <- <-. unfold setWorker, setMill. rewrite W. cbn [firstn skipn app]. now apply Unread.
        * destruct (millChoice parse sort filename MaxBackups MaxAge Compress now (readDir dir (lfs (slog s)) dirs)) as [[rm cs]|] eqn:Ch; injection E as <- <-; [|now apply Panicked].
          unfold setWorker, setMill. cbn [smill workers once ended pending slog spc noFormat crashed]. rewrite W. cbn [firstn skipn app]. apply Chose; auto.
          -- intros ->. reflexivity.
          -- intros (-> & -> & ->). discriminate O.
    - destruct (nth_error (workers (smill s)) k) as [w|] eqn:N; [|injection E as <- <-; constructor]. destruct (one_worker _ _ _ L N) as [-> W].
      destruct w as [| |[|x rm] cs|]; try (injection E as <- <-; constructor).
      destruct (if fails then (slog s, []) else step mname max mbackup gzip (slog s) (ERemove (dir ++ Name x))) as [l o1] eqn:F. injection E as <- <-. unfold setWorker, setMill, setLog. cbn [smill workers once ended pending slog spc noFormat crashed]. rewrite W. cbn [firstn skipn app].
      eapply Removes; eauto.
    - destruct (nth_error (workers (smill s)) k) as [w|] eqn:N; [|injection E as <- <-; constructor]. destruct (one_worker _ _ _ L N) as [-> W].
      destruct w as [| |[|y rm] [|x cs]|]; try (injection E as <- <-; constructor).
      destruct (step mname max mbackup gzip (slog s) (ECompress (dir ++ Name x) c)) as [l1 o1] eqn:F. injection E as <- <-.
      unfold setWorker, setMill, setLog. cbn [smill workers once ended pending slog spc noFormat crashed]. rewrite W. cbn [firstn skipn app].
      eapply Compresses; eauto.
  Qed.
  (** * One goroutine, and every request is served *)

  Definition shape (m : mill) : Prop := ended m = false /\
    (once m = false /\ pending m = false /\ workers m = [] \/ once m = true /\ exists w, workers m = [w] /\ w <> Ended /\ w <> Working [] []).
  Lemma shape_length : forall m, shape m -> (List.length (workers m) <= 1)%nat.
  Proof. intros s [_ [(_ & _ & ->)|(_ & w & -> & _)]]; cbn; lia. Qed.
  Lemma ask_shape : forall m, shape m -> shape (ask m) /\ pending (ask m) = true /\ once (ask m) = true /\ exists w, workers (ask m) = [w] /\ (workers m = [w] \/ workers m = [] /\ w = Waiting).
  Proof.
    intros [on pd en ws] [A B]. cbn [ended once pending workers] in *. subst en. destruct B as [(-> & -> & ->)|(-> & w & -> & W)]; unfold ask, shape; cbn [ended once pending workers app].
    - split; [|split; [reflexivity|split; [reflexivity|eauto]]]. split; [reflexivity|]. right. split; [reflexivity|]. exists Waiting. split; [reflexivity|split; discriminate].
    - destruct pd; cbn [ended once pending workers app]; (split; [|split; [reflexivity|split; [reflexivity|eauto]]]); (split; [reflexivity|]; right; split; [reflexivity|eauto]).
  Qed.
  Lemma going_ended : forall a b, going a b <> Ended /\ going a b <> Working [] [].
  Proof. intros [|x a] [|y b]; split; discriminate. Qed.
  Lemma mills_shape : forall s e s' o, shape (smill s) -> mills s e s' o -> shape (smill s') /\ once (smill s') = once (smill s).
  Proof.
    intros s e s' o [A B] M.
    assert (Q : forall w v pd, workers (smill s) = [w] -> v <> Ended /\ v <> Working [] [] -> shape (mkMill (once (smill s)) pd (ended (smill s)) [v])).
    { intros w v pd W V. split; [exact A|]. right. destruct B as [(_ & _ & K)|(K & _)]; [congruence|]. split; [exact K|]. exists v. auto. }
    destruct M; cbn [smill]; (split; [|reflexivity]); try (eapply Q; [eassumption|]; first [split; discriminate | subst; split; discriminate | apply going_ended]); try (split; assumption). congruence.
  Qed.
  (** One step, seen from the mill *)
  Inductive seen (s : st) (e : mevent) (s' : st) (o : list mout) : Prop :=
  | ByCrash : crashed s = true -> s' = s -> o = [] -> seen s e s' o
  | ByCall : ~ of_mill e -> crashed s = false -> stepC s e = (s', o) -> crashed s' = false -> lists o = [] -> smill s' = smill s -> asked o = [] -> seen s e s' o
  | ByAsk : ~ of_mill e -> crashed s = false -> stepC s e = (s', o) -> crashed s' = false -> lists o = [] -> smill s' = ask (smill s) -> asked o = [tt] -> slog s' = slog s -> seen s e s' o
  | ByMill : of_mill e -> crashed s = false -> mills s e s' o -> asked o = [] -> seen s e s' o.
  Lemma mills_asked : forall s e s' o, mills s e s' o -> asked o = [].
  Proof. intros s e s' o M. destruct M; try reflexivity; apply asked_Log. Qed.
  Lemma step_seen : forall s e s' o, shape (smill s) -> mstep s e = (s', o) -> seen s e s' o.
  Proof.
    intros s e s' o Sh E. destruct (crashed s) eqn:C.
    - unfold MillModel.mstep in E. rewrite C in E. injection E as <- <-. now apply ByCrash.
    - destruct (of_mill_dec e) as [M|N].
      + rewrite mstep_M in E by assumption. apply stepM_cases in E; [|now apply shape_length]. apply ByMill; auto. eapply mills_asked; eauto.
      + rewrite mstep_C in E by assumption. destruct (stepC_mill _ _ _ _ E) as (Cr & L & [[A B]|(A & B & D)]); rewrite C in Cr; [apply ByCall|apply ByAsk]; auto.
  Qed.
  Lemma seen_shape : forall s e s' o, shape (smill s) -> seen s e s' o -> shape (smill s').
  Proof.
    intros s e s' o Sh [_ -> _|_ _ _ _ _ -> _|_ _ _ _ _ -> _ _|_ _ M _]; auto; [apply (ask_shape _ Sh)|]. eapply mills_shape; eauto.
  Qed.
  Lemma run_shape : forall f format l, shape (smill (fst (mrun (newMill f format) l))).
  Proof.
    intros f format l. apply (mrun_ind (fun s _ => shape (smill s))); [split; [reflexivity|left; auto]|]. intros s o e Sh. destruct (mstep s e) as [s' o'] eqn:E. cbn [fst snd].
    eapply seen_shape; [exact Sh|]. eapply step_seen; [exact Sh|exact E].
  Qed.

  (** Before the first request there is no goroutine, after it there is one that never ends *)
  Lemma run_started : forall f format l s o, mrun (newMill f format) l = (s, o) ->
    shape (smill s) /\ (asked o = [] -> once (smill s) = false) /\ (asked o <> [] -> once (smill s) = true).
  Proof.
    intros f format l s o E. replace s with (fst (mrun (newMill f format) l)) by now rewrite E. replace o with (snd (mrun (newMill f format) l)) by now rewrite E. clear E.
    apply (mrun_ind (fun s o => shape (smill s) /\ (asked o = [] -> once (smill s) = false) /\ (asked o <> [] -> once (smill s) = true))).
    - split; [split; [reflexivity|left; auto]|]. split; [reflexivity|intro K; now destruct K].
    - clear s o. intros s o e (Sh & A & B). destruct (mstep s e) as [s' o'] eqn:E. cbn [fst snd]. apply step_seen in E; [|exact Sh]. split; [eapply seen_shape; eauto|]. rewrite asked_app.
      destruct E as [_ -> ->|_ _ _ _ _ -> Ao|_ _ _ _ _ Am Ao _|_ _ M Ao]; try rewrite Ao; try rewrite app_nil_r; auto.
      + split; intro K; [destruct (asked o); discriminate K|]. rewrite Am. apply (ask_shape _ Sh).
      + destruct (mills_shape _ _ _ _ Sh M) as [_ ->]. auto.
  Qed.

  Definition off : bool := (MaxBackups =? 0) && (MaxAge =? 0) && negb Compress.
  Lemma off_spec : off = true <-> MaxBackups = 0 /\ MaxAge = 0 /\ Compress = false.
  Proof using MaxBackups MaxAge Compress. unfold off. rewrite !andb_true_iff, !Z.eqb_eq, negb_true_iff. clear. tauto. Qed.
  (** Every request has been followed by a reading of the directory, or there is one on the way *)
  Definition served (o : list mout) : Prop := forall o1 o2, o = o1 ++ Asked :: o2 -> lists o2 <> [].
  Lemma served_app : forall o o', served o -> asked o' = [] -> served (o ++ o').
  Proof.
    intros o o' S A o1 o2 E. revert o E S. induction o1 as [|x o1 IH]; intros o E S.
    - destruct o as [|y o]; cbn in E.
      + subst o'. discriminate A.
      + injection E as -> <-. intro K. rewrite lists_app in K. apply app_eq_nil in K. destruct K as [K _]. exact (S [] o eq_refl K).
    - destruct o as [|y o]; cbn in E.
      + subst o'. cbn in A. exfalso. destruct x; try discriminate A; change (asked (o1 ++ Asked :: o2) = []) in A; rewrite asked_app in A; destruct (asked o1); discriminate A.
      + injection E as -> E. apply (IH o E). intros a b F. subst o. exact (S (x :: a) b eq_refl).
  Qed.
  Lemma served_last : forall o x, lists [x] <> [] -> served (o ++ [x]).
  Proof.
    intros o x X o1 o2 E. destruct o2 as [|y o2] using rev_ind.
    - change (o1 ++ [Asked]) with (o1 ++ [Asked]) in E. apply app_inj_tail in E. destruct E as [_ ->]. exact X.
    - change (o ++ [x] = o1 ++ (Asked :: o2) ++ [y]) in E. rewrite app_assoc in E. apply app_inj_tail in E. destruct E as [_ <-]. rewrite lists_app. intro K. apply app_eq_nil in K. exact (X (proj2 K)).
  Qed.
  Lemma asked_nil_served : forall o, asked o = [] -> served o.
  Proof. intros o A o1 o2 ->. rewrite asked_app in A. destruct (asked o1); discriminate A. Qed.
  Lemma run_served : off = false -> forall f format l s o, mrun (newMill f format) l = (s, o) ->
    shape (smill s) /\ (crashed s = false -> served o \/ pending (smill s) = true \/ workers (smill s) = [Awake]).
  Proof.
    intros Off f format l s o E. replace s with (fst (mrun (newMill f format) l)) by now rewrite E. replace o with (snd (mrun (newMill f format) l)) by now rewrite E. clear E.
    apply (mrun_ind (fun s o => shape (smill s) /\ (crashed s = false -> served o \/ pending (smill s) = true \/ workers (smill s) = [Awake]))).
    - split; [split; [reflexivity|left; auto]|]. intros _. left. now apply asked_nil_served.
    - clear s o. intros s o e (Sh & A). destruct (mstep s e) as [s' o'] eqn:E. cbn [fst snd]. apply step_seen in E; [|exact Sh]. split; [eapply seen_shape; eauto|]. intro C'.
      destruct E as [C -> ->|_ C _ _ _ Em Ao|_ C _ _ _ Am Ao _|_ C M Ao].
      + congruence.
      + rewrite Em. specialize (A C). destruct A as [A|A]; [left; now apply served_app|now right].
      + right. left. rewrite Am. apply (ask_shape _ Sh).
      + specialize (A C). destruct M as [e|k w W P ->|k W En|k fails dirs now W M1 M2 M3|k dirs now W|k dirs now W Ch|k dirs now rm cs fm W Ch Fm On|k fails x rm cs l' o' W St|k c x cs l' o' W St]; cbn [smill pending workers].
        * rewrite app_nil_r. exact A.
        * right. now right.
        * destruct Sh as [K _]. congruence.
        * assert (K : off = true) by (apply off_spec; auto). congruence.
        * left. now apply served_last.
        * discriminate C'.
        * left. now apply served_last.
        * destruct A as [A|[A|A]]; [left; now apply served_app|right; now left|congruence].
        * destruct A as [A|[A|A]]; [left; now apply served_app|right; now left|congruence].
  Qed.
  (** Not more readings than requests *)
  Definition b2n (b : bool) : nat := if b then 1 else 0.
  Definition awake (s : st) : nat := match workers (smill s) with [Awake] => 1 | _ => 0 end.
  Lemma run_counts : forall f format l s o, mrun (newMill f format) l = (s, o) ->
    shape (smill s) /\ (crashed s = false -> List.length (lists o) + b2n (pending (smill s)) + awake s <= List.length (asked o))%nat /\ (List.length (lists o) <= List.length (asked o))%nat.
  Proof.
    intros f format l s o E. replace s with (fst (mrun (newMill f format) l)) by now rewrite E. replace o with (snd (mrun (newMill f format) l)) by now rewrite E. clear E.
    apply (mrun_ind (fun s o => shape (smill s) /\ (crashed s = false -> List.length (lists o) + b2n (pending (smill s)) + awake s <= List.length (asked o))%nat /\ (List.length (lists o) <= List.length (asked o))%nat)).
    - split; [split; [reflexivity|left; auto]|]. cbn. lia.
    - clear s o. intros s o e (Sh & A & B). destruct (mstep s e) as [s' o'] eqn:E. cbn [fst snd]. apply step_seen in E; [|exact Sh]. split; [eapply seen_shape; eauto|].
      rewrite lists_app, asked_app, !app_length.
      destruct E as [C -> ->|_ C _ _ Lo Em Ao|_ C _ _ Lo Am Ao _|_ C M Ao].
      + cbn. split; [congruence|]. lia.
      + unfold awake. rewrite Lo, Ao, Em. fold (awake s). specialize (A C). cbn. split; intros; lia.
      + rewrite Lo, Ao. specialize (A C). destruct (ask_shape _ Sh) as (_ & P & _ & w & W & W'). unfold awake in *. rewrite Am, P, W. cbn [List.length b2n].
        assert (K : (match [w] with [Awake] => 1 | _ => 0 end = match workers (smill s) with [Awake] => 1 | _ => 0 end)%nat) by (destruct W' as [->|[-> ->]]; reflexivity). rewrite K. split; intros; lia.
      + specialize (A C). rewrite Ao. cbn [List.length]. unfold awake in *.
        destruct M as [e|k w W P ->|k W En|k fails dirs now W M1 M2 M3|k dirs now W|k dirs now W Ch|k dirs now rm cs fm W Ch Fm On|k fails x rm cs l' o' W St|k c x cs l' o' W St]; cbn [smill pending workers];
          rewrite ?lists_Log; cbn [lists flat_map app List.length b2n].
        * split; intros; lia.
        * rewrite W, P in A. cbn in A. split; intros; lia.
        * rewrite W in A. cbn in A. split; intros; lia.
        * rewrite W in A. cbn in A. split; intros; lia.
        * rewrite W in A. cbn in A. split; intros; lia.
        * rewrite W in A. cbn in A. split; [discriminate|]. lia.
        * rewrite W in A. cbn in A. split; [intros _|lia]. destruct rm; destruct cs; cbn; lia.
        * rewrite W in A. cbn in A. split; [intros _|lia]. destruct rm; destruct cs; cbn; lia.
        * rewrite W in A. cbn in A. split; [intros _|lia]. destruct cs; cbn; lia.
  Qed.

  (** * Nothing is left over when the mill rests *)

  Notation is_b := (is_backup parse filename).
  Notation a_b := (a_backup dir filename parse).
  Definition dirty (p : pc) : Prop := match p with Opened _ _ _ | Checked _ _ | Rotated => True | _ => False end.
  (** The answers that a call under way will get *)
  Definition fine_pc (p : pc) : Prop :=
    match p with
    | Opening _ a a' _ => fine a /\ fine a'
    | Opened _ a' _ | Checking _ a' _ => fine a'
    | Rotating a => fine a
    | _ => True
    end.
  (** Every backup is to be removed, or one of the preserved ones, and compressed, or to be compressed *)
  Definition covers (f : FS) (rm cs : list logInfo) (now : Z) : Prop := exists base : list bytes,
    (0 < MaxBackups -> different base <= MaxBackups) /\
    (forall n, a_b f n -> In n (map Name rm) \/ In (uncompressedName n) base /\ (Compress = true -> compressed n \/ In n (map Name cs)) /\ young filename parse MaxAge now n) /\
    Forall (fun x => ~ compressed (Name x) /\ In (Name x) base /\ is_b (Name x) (timestamp x) /\ ~ aged MaxAge now x) cs.

  Lemma backup_not_log : forall n t, is_b n t -> n <> filename /\ n ++ bs ".gz" <> filename.
  Proof.
    intros n t (ts & _ & B). pose proof (backup_longer filename ts) as L.
    assert (Lx : (List.length filename < List.length n)%nat) by (destruct B as [-> | ->]; rewrite ?app_length; lia).
    split; intro K; apply (f_equal (@List.length Z)) in K; rewrite ?app_length in K; lia.
  Qed.
  Lemma a_b_fewer : forall f f', (forall p, p <> mname -> find (links f') p <> None -> find (links f) p <> None) -> forall n, a_b f' n -> a_b f n.
  Proof.
    intros f f' H n (F & S & t & B). split; [|split; [exact S|eauto]]. apply H; [|exact F]. unfold MillModel.mname. intro K. apply app_inv_head in K. exact (proj1 (backup_not_log _ _ B) K).
  Qed.
  Lemma covers_fewer : forall f f' rm cs now, (forall p, p <> mname -> find (links f') p <> None -> find (links f) p <> None) -> covers f rm cs now -> covers f' rm cs now.
  Proof. intros f f' rm cs now H (base & A & B & C). exists base. split; [exact A|]. split; [|exact C]. intros n N. apply B. eapply a_b_fewer; eauto. Qed.
  Lemma createTrunc_links : forall f p, p <> mname -> find (links (fst (createTrunc f mname))) p = find (links f) p.
  Proof. intros f p N. unfold createTrunc. destruct (find (links f) mname); [reflexivity|]. cbn [fst links]. rewrite find_link, streq_neq by congruence. reflexivity. Qed.

  (** Without errors, opening makes a backup only if it rotates *)
  Lemma opening_links : forall s a n l err o, fine a -> openExistingOrNew mname max mbackup s a n = (l, err, o) -> tooLarge dir filename max s a n = false ->
    forall p, p <> mname -> find (links (lfs l)) p = find (links (lfs s)) p.
  Proof.
    intros s a n l err o (A1 & A2 & A3 & A4 & A5 & A6 & A7 & A8 & A9) E T p P. unfold openExistingOrNew in E. unfold tooLarge in T.
    destruct (find (links (lfs s)) mname) as [i|] eqn:F; rewrite A1 in *.
    - cbn [negb andb] in T. rewrite T, A2 in E. injection E as <- _ _. reflexivity.
    - unfold openNew in E. rewrite A4, F, A9 in E. destruct (createTrunc (lfs s) mname) as [f x] eqn:Q. injection E as <- _ _. cbn [lfs]. change f with (fst (f, x)). rewrite <- Q. now apply createTrunc_links.
  Qed.
  (** A step of a call adds no backup, or it comes to ask the mill next *)
  Lemma stepC_links : forall s e s' o, healthy e -> fine_pc (spc s) -> stepC s e = (s', o) -> fine_pc (spc s') /\
    (dirty (spc s') \/ (forall p, p <> mname -> find (links (lfs (slog s'))) p <> None -> find (links (lfs (slog s))) p <> None) /\ (dirty (spc s) -> smill s' = ask (smill s)) ).
  Proof.
    intros s e s' o H Fp E.
    assert (Tr : fine_pc (spc s) /\ (dirty (spc s) \/ (forall p, p <> mname -> find (links (lfs (slog s))) p <> None -> find (links (lfs (slog s))) p <> None) /\ (dirty (spc s) -> smill s = ask (smill s)))).
    { split; [exact Fp|]. destruct (spc s); cbn; tauto. }
    destruct e; cbn [MillModel.stepC] in E; try (injection E as <- <-; exact Tr).
    - destruct (spc s) eqn:P; try (injection E as <- <-; rewrite P; exact Tr). destruct (max <? lenZ p); [injection E as <- <-; rewrite P; exact Tr|].
      destruct (lfile (slog s)); injection E as <- <-; cbn [setLog spc slog fine_pc healthy dirty] in *; (split; [tauto|]); right; (split; [tauto|intros []]).
    - destruct (spc s) eqn:P; try (injection E as <- <-; rewrite P; exact Tr). injection E as <- <-; cbn [setLog spc slog fine_pc healthy dirty] in *. split; [exact H|]. right. split; [tauto|intros []].
    - destruct (spc s) eqn:P; try (injection E as <- <-; rewrite P; exact Tr). injection E as <- <-; cbn [setLog spc slog fine_pc healthy dirty] in *. split; [exact I|]. right. split; [|intros []].
      intros q _. unfold close. destruct (lfile (slog s)); cbn [fst lfs]; auto.
    - destruct (spc s) as [|p a a' fails|p a' fails|p a' fails|p fails|p fails|a|] eqn:P.
      + injection E as <- <-; rewrite P; exact Tr.
      + cbn [fine_pc] in Fp. destruct (openExistingOrNew mname max mbackup (slog s) a (lenZ p)) as [[l err] o1] eqn:O. destruct err.
        * destruct (tooLarge dir filename max (slog s) a (lenZ p)) eqn:T; [|injection E as <- <-; cbn [setLog spc slog fine_pc dirty]; split; [exact I|]; right; split; [intros q Q; now rewrite (opening_links _ _ _ _ _ _ (proj1 Fp) O T)|intros []]].
          exfalso. destruct Fp as ((A1 & A2 & A3 & A4 & A5 & A6 & A7 & A8 & A9) & _). unfold openExistingOrNew in O. unfold tooLarge in T.
          destruct (find (links (lfs (slog s))) mname) as [i|] eqn:F; [|discriminate T]. rewrite A1 in O. apply andb_prop in T. destruct T as [_ T]. rewrite T in O.
          unfold rotate, close in O. destruct (lfile (slog s)) as [x|]; rewrite ?A3 in O; unfold openNew in O; cbn [lfs] in O; rewrite A4, F, A5, A6, A7 in O;
            destruct (createTrunc _ mname) as [f1 x1] in O; rewrite A8, A9 in O; destruct (createTrunc f1 mname) as [f2 x2] in O; discriminate O.
        * destruct (tooLarge dir filename max (slog s) a (lenZ p)) eqn:T; injection E as <- <-; cbn [setLog spc slog fine_pc dirty]; (split; [tauto|]); [now left|]. right.
          split; [intros q Q; now rewrite (opening_links _ _ _ _ _ _ (proj1 Fp) O T)|intros []].
      + injection E as <- <-; cbn [asks setLog spc slog smill fine_pc dirty] in *. split; [exact Fp|]. right. tauto.
      + cbn [fine_pc] in Fp. destruct (max <? int64 (size (slog s) + lenZ p)); [|injection E as <- <-; cbn [setLog spc slog fine_pc dirty]; split; [exact I|]; right; split; [tauto|intros []]].
        destruct (rotate mname mbackup (slog s) a') as [[l err] o1] eqn:O. destruct err; injection E as <- <-; cbn [setLog spc slog fine_pc dirty]; (split; [exact I|]); [|now left]. exfalso.
        revert O Fp. clear. intros O (A1 & A2 & A3 & A4 & A5 & A6 & A7 & A8 & A9). unfold rotate, close in O.
        destruct (lfile (slog s)) as [x|]; rewrite ?A3 in O; unfold openNew in O; cbn [lfs] in O; rewrite A4 in O; destruct (find (links (lfs (slog s))) mname); rewrite ?A5, ?A6, ?A7, ?A8, ?A9 in O;
          repeat (match type of O with context [createTrunc ?f ?n] => destruct (createTrunc f n) as [? ?] end; rewrite ?A8, ?A9 in O); discriminate O.
      + injection E as <- <-; cbn [asks setLog spc slog smill fine_pc dirty] in *. split; [exact I|]. right. tauto.
      + destruct (lfile (slog s)) as [x|]; [|injection E as <- <-; cbn [setLog spc slog fine_pc dirty]; split; [exact I|]; right; split; [tauto|intros []]].
        destruct (fileWrite (lfs (slog s)) x match fails with None => p | Some n => firstn n p end) as [f y] eqn:W.
        injection E as <- <-; cbn [setLog spc slog fine_pc dirty lfs]. split; [exact I|]. right. split; [|intros []]. intros q _.
        cbn [links]. auto.
      + cbn [fine_pc] in Fp. destruct (rotate mname mbackup (slog s) a) as [[l err] o1] eqn:O. destruct err; injection E as <- <-; cbn [setLog spc slog fine_pc dirty]; (split; [exact I|]); [|now left]. exfalso.
        revert O Fp. clear. intros O (A1 & A2 & A3 & A4 & A5 & A6 & A7 & A8 & A9). unfold rotate, close in O.
        destruct (lfile (slog s)) as [x|]; rewrite ?A3 in O; unfold openNew in O; cbn [lfs] in O; rewrite A4 in O; destruct (find (links (lfs (slog s))) mname); rewrite ?A5, ?A6, ?A7, ?A8, ?A9 in O;
          repeat (match type of O with context [createTrunc ?f ?n] => destruct (createTrunc f n) as [? ?] end; rewrite ?A8, ?A9 in O); discriminate O.
      + injection E as <- <-; cbn [asks setLog spc slog smill fine_pc dirty] in *. split; [exact I|]. right. tauto.
  Qed.
  Lemma readDir_In : forall f dirs n, find (links f) (dir ++ n) <> None -> ~ In 47 n -> In (n, false) (readDir dir f dirs).
  Proof.
    intros f dirs n F S. unfold readDir. apply in_or_app. left. apply (in_map (fun n => (n, false))). apply nodup_In. apply in_flat_map.
    assert (Q : forall l, find l (dir ++ n) <> None -> exists i, In (dir ++ n, i) l).
    { induction l as [|[q j] l IH]; [intro K; now destruct K|]. cbn [find]. destruct (streq q (dir ++ n)) eqn:E; intro K; [apply streq_eq in E; subst q; exists j; now left|]. destruct (IH K) as [i I]. exists i. now right. }
    destruct (Q _ F) as [i I]. exists (dir ++ n, i). split; [exact I|]. cbn [fst]. unfold inDir. rewrite (proj2 (hasPrefix_iff dir (dir ++ n))) by eauto.
    rewrite skipn_app, skipn_all, Nat.sub_diag. cbn [skipn app]. destruct (existsb (Z.eqb 47) n) eqn:X; [|now left]. exfalso. apply existsb_exists in X. destruct X as (c & C & E). apply Z.eqb_eq in E. subst c. exact (S C).
  Qed.
  Lemma surplus_mono : forall old j k, (j <= k)%nat -> surplus MaxBackups old j -> surplus MaxBackups old k.
  Proof.
    intros old j k L [A B]. split; [exact A|]. eapply Z.lt_le_trans; [exact B|]. apply different_set. intros z Z0. apply in_map_iff in Z0. destruct Z0 as (x & <- & X). apply in_map_iff. exists x. split; [reflexivity|].
    replace (firstn (S j) old) with (firstn (S j) (firstn (S k) old)) in X by (rewrite firstn_firstn; f_equal; lia). rewrite <- (firstn_skipn (S j) (firstn (S k) old)). apply in_or_app. now left.
  Qed.
  Lemma surplus_dec : forall old k, {surplus MaxBackups old k} + {~ surplus MaxBackups old k}.
  Proof. intros old k. unfold surplus. destruct (Z_lt_dec 0 MaxBackups) as [A|A]; [|right; lia]. destruct (Z_lt_dec MaxBackups (different (map (fun x => uncompressedName (Name x)) (firstn (S k) old)))); [left|right]; lia. Qed.
  Lemma surplus_from : forall old, exists j, (forall k, (k < List.length old)%nat -> surplus MaxBackups old k <-> (j <= k)%nat) /\ (0 < MaxBackups -> different (map (fun x => uncompressedName (Name x)) (firstn j old)) <= MaxBackups).
  Proof.
    intro old.
    assert (Q : forall n, (forall k, (k < n)%nat -> ~ surplus MaxBackups old k) \/ exists j, (j < n)%nat /\ surplus MaxBackups old j /\ forall k, (k < j)%nat -> ~ surplus MaxBackups old k).
    { induction n as [|n [A|(j & J & A & B)]]; [left; intros k K; lia| |right; exists j; split; [lia|auto]].
      destruct (surplus_dec old n) as [Y|N]; [right; exists n; split; [lia|auto]|]. left. intros k K. destruct (Nat.eq_dec k n) as [->|D]; [exact N|]. apply A. lia. }
    assert (R : forall j, (forall k, (k < j)%nat -> ~ surplus MaxBackups old k) -> 0 < MaxBackups -> different (map (fun x => uncompressedName (Name x)) (firstn j old)) <= MaxBackups).
    { intros [|j] N P; [cbn; lia|]. specialize (N j ltac:(lia)). unfold surplus in N. lia. }
    destruct (Q (List.length old)) as [A|(j & J & A & B)].
    - exists (List.length old). split; [|apply R; exact A]. intros k K. split; [intro Y; destruct (A k K Y)|lia].
    - exists j. split; [|apply R; exact B]. intros k K. split.
      + intro Y. destruct (Nat.lt_ge_cases k j) as [L|L]; [destruct (B k L Y)|exact L].
      + intro L. eapply surplus_mono; eauto.
  Qed.
  Lemma covers_chosen : forall f dirs now rm cs, sorts sort -> MaxAge <= 106751 -> ~ (MaxBackups = 0 /\ MaxAge = 0 /\ Compress = false) ->
    millChoice parse sort filename MaxBackups MaxAge Compress now (readDir dir f dirs) = Some (rm, cs) -> covers f rm cs now.
  Proof.
    intros f dirs now rm cs Sr Ma On E.
    assert (Eo : exists old, oldLogFiles parse sort filename (readDir dir f dirs) = Some old).
    { unfold millChoice in E. destruct ((MaxBackups =? 0) && (MaxAge =? 0) && negb Compress) eqn:O; [exfalso; apply On; apply off_spec; exact O|].
      destruct (oldLogFiles parse sort filename (readDir dir f dirs)) as [old|]; [eauto|discriminate E]. }
    destruct Eo as [old Eo]. pose proof (C41_choice _ _ _ _ _ _ _ _ _ _ _ Ma Eo E) as Ch. destruct (C41_backups _ _ _ _ _ Sr Eo) as (_ & Fb & Nm & _). rewrite Forall_forall in Fb.
    destruct (surplus_from old) as (j & J & D). exists (map (fun x => uncompressedName (Name x)) (firstn j old)). split; [exact D|].
    assert (InJ : forall k x, nth_error old k = Some x -> ~ surplus MaxBackups old k -> In (uncompressedName (Name x)) (map (fun x => uncompressedName (Name x)) (firstn j old))).
    { intros k x K N. apply (in_map (fun x => uncompressedName (Name x))). assert (Lk : (k < List.length old)%nat) by (apply nth_error_Some; congruence). rewrite J in N by exact Lk.
      rewrite <- (firstn_skipn j old), nth_error_app1 in K by (rewrite firstn_length; lia). eapply nth_error_In. exact K. }
    split.
    - intros n (Fn & Sn & t & Bn). assert (I : In n (map Name old)) by (apply Nm; split; [apply readDir_In; assumption|eauto]).
      apply in_map_iff in I. destruct I as (x & <- & Ix). destruct (In_nth_error _ _ Ix) as [k K]. destruct (Ch x) as [Rm Cs].
      assert (Ag : {aged MaxAge now x} + {~ aged MaxAge now x}). { unfold aged. destruct (Z_lt_dec 0 MaxAge) as [A|A]; [|right; lia]. destruct (Z_lt_dec (timestamp x + MaxAge * (24 * 60 * 60 * 10 ^ 9)) now); [left|right]; lia. }
      destruct (surplus_dec old k) as [Y|N]; [left; apply in_map, Rm; eauto|]. destruct Ag as [Y|Na]; [left; apply in_map, Rm; eauto|]. right. split; [eapply InJ; eauto|]. split.
      + intro Co. destruct (hasSuffix (Name x) (bs ".gz")) eqn:Hs; [left; apply hasSuffix_iff in Hs; destruct Hs as [b ->]; exists b; reflexivity|]. right. apply in_map, Cs. split; [exact Co|]. split; [|eauto].
        intros [b Eb]. rewrite (proj2 (hasSuffix_iff (bs ".gz") (Name x))) in Hs by eauto. discriminate Hs.
      + exists (timestamp x). split; [apply Fb; exact Ix|exact Na].
    - apply Forall_forall. intros x X. apply (proj2 (Ch x)) in X. destruct X as (_ & Nc & Na & k & K & N). split; [exact Nc|]. split; [|split; [apply Fb; eapply nth_error_In; exact K|exact Na]].
      rewrite <- (proj2 (C41_once (Name x)) Nc). eapply InJ; eauto.
  Qed.
  Lemma covers_removed : forall s x rm cs now l o, covers (lfs s) (x :: rm) cs now -> step mname max mbackup gzip s (ERemove (dir ++ Name x)) = (l, o) -> covers (lfs l) rm cs now.
  Proof.
    intros s x rm cs now l o (base & A & B & C) E. exists base. split; [exact A|]. split; [|exact C]. intros n N. cbn [step] in E.
    assert (Q : a_b (lfs s) n /\ n <> Name x).
    { destruct (find (links (lfs s)) (dir ++ Name x)) as [i|] eqn:F; apply pair_equal_spec in E as [<- _].
      - cbn [lfs] in N. destruct N as (N1 & N2 & N3). cbn [links] in N1. rewrite find_unlink in N1. destruct (streq (dir ++ Name x) (dir ++ n)) eqn:S; [now destruct N1|]. split; [split; auto|].
        intros ->. rewrite streq_refl in S. discriminate S.
      - split; [exact N|]. intros ->. destruct N as (N1 & _). exact (N1 F). }
    destruct Q as [Q1 Q2]. destruct (B n Q1) as [[K|K]|K]; [congruence|now left|now right].
  Qed.
  Lemma covers_compressed : forall s x cs now l o, covers (lfs s) [] (x :: cs) now -> step mname max mbackup gzip s (ECompress (dir ++ Name x) Compressed) = (l, o) -> covers (lfs l) [] cs now.
  Proof.
    intros s x cs now l o (base & A & B & C) E. pose proof (Forall_inv C) as (X1 & X2 & X3 & X4). apply Forall_inv_tail in C. exists base. split; [exact A|]. split; [|exact C]. intros n N. right. cbn [step] in E. unfold compress in E.
    assert (Q : n = Name x ++ bs ".gz" \/ a_b (lfs s) n /\ n <> Name x).
    { destruct (find (links (lfs s)) (dir ++ Name x)) as [i|] eqn:F; apply pair_equal_spec in E as [<- _].
      - cbn [lfs] in N. destruct N as (N1 & N2 & N3). cbn [links replace] in N1. rewrite find_unlink in N1. destruct (streq (dir ++ Name x) (dir ++ n)) eqn:S; [now destruct N1|]. rewrite find_link in N1.
        destruct (streq ((dir ++ Name x) ++ bs ".gz") (dir ++ n)) eqn:S2.
        + left. apply streq_eq in S2. rewrite <- app_assoc in S2. apply app_inv_head in S2. now symmetry.
        + right. split; [split; auto|]. intros ->. rewrite streq_refl in S. discriminate S.
      - right. split; [exact N|]. intros ->. destruct N as (N1 & _). exact (N1 F). }
    destruct Q as [-> |[Q1 Q2]].
    - split; [now rewrite (proj1 (C41_once (Name x)))|]. split; [intros _; left; eexists; reflexivity|]. exists (timestamp x). split; [|exact X4].
      destruct X3 as (ts & T & [-> | K]); [exists ts; auto|]. exfalso. apply X1. rewrite K. eexists. reflexivity.
    - destruct (B n Q1) as [[]|(K1 & K2 & K3)]. split; [exact K1|]. split; [|exact K3]. intro Co. destruct (K2 Co) as [K|[K|K]]; [now left|congruence|now right].
  Qed.

  Definition clean (s : st) (o : list mout) : Prop := shape (smill s) /\ fine_pc (spc s) /\
    (crashed s = false -> once (smill s) = true -> pending (smill s) = true \/ dirty (spc s) \/ workers (smill s) = [Awake] \/
      exists now, lastRead o = Some now /\ (workers (smill s) = [Waiting] /\ covers (lfs (slog s)) [] [] now \/ exists rm cs, workers (smill s) = [Working rm cs] /\ covers (lfs (slog s)) rm cs now)).
  Lemma going_covers : forall rm cs f now, covers f rm cs now -> [going rm cs] = [Waiting] /\ covers f [] [] now \/ exists rm' cs', [going rm cs] = [Working rm' cs'] /\ covers f rm' cs' now.
  Proof. intros [|x rm] [|y cs] f now C; [left; auto|right; do 2 eexists; split; [reflexivity|exact C]..]. Qed.
  Lemma run_clean : off = false -> sorts sort -> MaxAge <= 106751 -> forall f format l s o, Forall healthy l -> mrun (newMill f format) l = (s, o) -> clean s o.
  Proof.
    intros Off Sr Ma f format l s o H E. replace s with (fst (mrun (newMill f format) l)) by now rewrite E. replace o with (snd (mrun (newMill f format) l)) by now rewrite E. clear E s o.
    apply (mrun_ind_ok healthy clean); [|clear l H|exact H].
    { split; [split; [reflexivity|left; auto]|]. split; [exact I|]. intros _ K. discriminate K. }
    intros s o e H (Sh & Fp & A). destruct (mstep s e) as [s' o'] eqn:E. cbn [fst snd]. apply step_seen in E; [|exact Sh]. split; [eapply seen_shape; eauto|].
    assert (NoCall : of_mill e -> spc s' = spc s).
    { intro M. destruct E as [C -> ->|N _ _ _ _ _ _|N _ _ _ _ _ _ _|_ C Mi _]; try tauto. destruct Mi; reflexivity. }
    destruct E as [C -> ->|N C St C' Lo Em Ao|N C St C' Lo Em Ao Es|M C Mi Ao].
    - split; [exact Fp|]. intro K. congruence.
    - destruct (stepC_links _ _ _ _ H Fp St) as [Fp' D]. split; [exact Fp'|]. intros _. rewrite Em. intro On. destruct D as [D|[D1 D2]]; [right; now left|].
      destruct (A C On) as [P|[P|[P|(now & L & P)]]].
      + now left.
      + left. rewrite <- Em, (D2 P). apply (ask_shape _ Sh).
      + right. right. now left.
      + right. right. right. exists now. rewrite lastRead_app by (apply lastRead_quiet; exact Lo). split; [exact L|]. destruct P as [[W P]|(rm & cs & W & P)].
        * left. split; [exact W|]. eapply covers_fewer; eauto.
        * right. exists rm, cs. split; [exact W|]. eapply covers_fewer; eauto.
    - destruct (stepC_links _ _ _ _ H Fp St) as [Fp' _]. split; [exact Fp'|]. intros _ _. left. rewrite Em. apply (ask_shape _ Sh).
    - split; [rewrite (NoCall M); exact Fp|]. rewrite (NoCall M). intros C' On'.
      assert (On : once (smill s) = true) by (rewrite <- On'; symmetry; eapply mills_shape; eauto). specialize (A C On).
      destruct Mi as [e|k w W P ->|k W En|k fails dirs now W M1 M2 M3|k dirs now W|k dirs now W Ch|k dirs now rm cs fm W Ch Fm Con|k fails x rm cs l' o' W St|k c x cs l' o' W St]; cbn [smill pending workers slog].
      + rewrite app_nil_r. exact A.
      + right. right. now left.
      + destruct Sh as [K _]. congruence.
      + assert (K : off = true) by (apply off_spec; auto). congruence.
      + discriminate H.
      + discriminate C'.
      + right. right. right. exists now. rewrite lastRead_one. split; [reflexivity|]. apply going_covers. eapply covers_chosen; eauto.
      + cbn [healthy] in H. subst fails. destruct A as [P|[P|[P|(now & L & P)]]]; [now left|right; now left|congruence|]. right. right. right. exists now.
        rewrite lastRead_app by apply lastRead_Log. split; [exact L|]. destruct P as [[K _]|(rm' & cs' & K & P)]; [congruence|]. rewrite W in K. injection K as <- <-. apply going_covers. eapply covers_removed; eauto.
      + cbn [healthy] in H. subst c. destruct A as [P|[P|[P|(now & L & P)]]]; [now left|right; now left|congruence|]. right. right. right. exists now.
        rewrite lastRead_app by apply lastRead_Log. split; [exact L|]. destruct P as [[K _]|(rm' & cs' & K & P)]; [congruence|]. rewrite W in K. injection K as <- <-. apply going_covers. eapply covers_compressed; eauto.
  Qed.
  (** The mill that rests *)
  Lemma at_rest_iff : forall s, shape (smill s) -> at_rest mstep s <-> spc s = Idle /\ crashed s = false /\ (workers (smill s) = [] \/ workers (smill s) = [Waiting] /\ pending (smill s) = false).
  Proof.
    intros s [En Sh]. unfold at_rest. split.
    - intros (P & C & Q). split; [exact P|]. split; [exact C|]. destruct Sh as [(_ & _ & W)|(On & w & W & Nw)]; [now left|]. right.
      assert (Q' : forall e, of_mill e -> stepM s e = (s, [])) by (intros e Me; rewrite <- mstep_M by assumption; auto).
      destruct w as [| |rm cs|]; [| | |now destruct (proj1 Nw)].
      + split; [exact W|]. specialize (Q' (MReceive 0) I). cbn [MillModel.stepM] in Q'. rewrite W in Q'. cbn [nth_error] in Q'. destruct (pending (smill s)) eqn:Pd; [|reflexivity]. exfalso.
        injection Q' as Q'. apply (f_equal (fun s => workers (smill s))) in Q'. cbn in Q'. rewrite W in Q'. discriminate Q'.
      + exfalso. specialize (Q' (MList 0 true [] 0) I). cbn [MillModel.stepM] in Q'. rewrite W in Q'. cbn [nth_error] in Q'. destruct (_ && _ && _); [|discriminate Q']. injection Q' as Q'. apply (f_equal (fun s => workers (smill s))) in Q'. cbn in Q'. rewrite W in Q'. discriminate Q'.
      + exfalso. destruct rm as [|x rm].
        * destruct cs as [|x cs]; [now destruct (proj2 Nw)|]. specialize (Q' (MCompress 0 FailedBefore) I). cbn [MillModel.stepM] in Q'. rewrite W in Q'. cbn [nth_error step] in Q'.
          destruct (compress gzip (lfs (slog s)) (dir ++ Name x) ((dir ++ Name x) ++ bs ".gz") FailedBefore) as [f o]. apply pair_equal_spec in Q' as [Q' _]. apply (f_equal (fun s => workers (smill s))) in Q'. cbn [setWorker setMill setLog smill workers] in Q'. rewrite W in Q'. cbn [firstn skipn app] in Q'.
          destruct cs; cbn [going] in Q'; [discriminate Q'|]. injection Q' as _ Q'. apply (f_equal (@List.length logInfo)) in Q'. cbn in Q'. lia.
        * specialize (Q' (MRemove 0 true) I). cbn [MillModel.stepM] in Q'. rewrite W in Q'. cbn [nth_error] in Q'. apply pair_equal_spec in Q' as [Q' _]. apply (f_equal (fun s => workers (smill s))) in Q'. cbn [setWorker setMill setLog smill workers] in Q'. rewrite W in Q'. cbn [firstn skipn app] in Q'.
          assert (Q2 : match going rm cs with Working r _ => r | _ => [] end = x :: rm) by (injection Q' as Q'; now rewrite Q'). destruct rm as [|y rm]; [destruct cs; discriminate Q2|]. cbn [going] in Q2. apply (f_equal (@List.length logInfo)) in Q2. cbn in Q2. lia.
    - intros (P & C & W). split; [exact P|]. split; [exact C|]. intros e Me. rewrite mstep_M by assumption. destruct W as [W|[W Pd]].
      + destruct e; cbn in Me; try tauto; cbn [MillModel.stepM]; rewrite W; destruct k; reflexivity.
      + destruct e; cbn in Me; try tauto; cbn [MillModel.stepM]; rewrite W; destruct k as [|k]; cbn [nth_error]; try reflexivity; try (destruct k; reflexivity). rewrite Pd, En. reflexivity.
  Qed.

  (** * Calls *)

  Lemma openNew_file : forall name backup s a l err o, openNew name backup s a = (l, err, o) -> lfile s = None -> (err = true -> lfile l = None) /\ (err = false -> lfile l <> None).
  Proof.
    intros name backup s a l err o E F. unfold openNew in E. destruct (aMkdir a); [injection E as <- <- _; split; congruence|].
    assert (Cr : forall f o', (if aCreate a then (mkLogger f (size s) (lfile s), true, o') else let '(f, x) := createTrunc f name in (mkLogger f 0 (Some x), false, o')) = (l, err, o) -> (err = true -> lfile l = None) /\ (err = false -> lfile l <> None)).
    { intros f o' K. destruct (aCreate a); [injection K as <- <- _; split; [auto|discriminate]|]. destruct (createTrunc f name) as [f' x]. injection K as <- <- _. cbn. split; [discriminate|congruence]. }
    destruct (find (links (lfs s)) name) as [i|]; [|exact (Cr _ _ E)]. destruct (aStatNew a); [exact (Cr _ _ E)|]. destruct (aRename a); [injection E as <- <- _; split; congruence|].
    destruct (aChownOpen a); [injection E as <- <- _; split; [auto|discriminate]|]. destruct (createTrunc _ name) as [f x] in E. destruct (aChown a); [injection E as <- <- _; split; [auto|discriminate]|exact (Cr _ _ E)].
  Qed.
  Lemma rotate_file : forall name backup s a l err o, rotate name backup s a = (l, err, o) -> (err = true -> lfile l = None) /\ (err = false -> lfile l <> None).
  Proof.
    intros name backup s a l err o E. unfold rotate, close in E. destruct (lfile s) as [x|] eqn:F.
    - destruct (aClose a); [injection E as <- <- _; split; [auto|discriminate]|]. eapply openNew_file; [exact E|reflexivity].
    - eapply openNew_file; eauto.
  Qed.
  Lemma opens_file : forall name m backup s a n l err o, openExistingOrNew name m backup s a n = (l, err, o) -> lfile s = None -> (err = true -> lfile l = None) /\ (err = false -> lfile l <> None).
  Proof.
    intros name m backup s a n l err o E F. unfold openExistingOrNew in E. destruct (find (links (lfs s)) name) as [i|].
    - destruct (aStat a); [injection E as <- <- _; split; congruence|]. destruct (m <=? _); [eapply rotate_file; eauto|]. destruct (aAppend a); [eapply openNew_file; eauto|]. injection E as <- <- _. cbn. split; congruence.
    - destruct (aStat a); [injection E as <- <- _; split; congruence|]. eapply openNew_file; eauto.
  Qed.
  Lemma Log_succeeded : forall o, returned o = [] -> ~ succeeded (map Log o).
  Proof.
    intros o R [[n K]|K]; apply in_map_iff in K; destruct K as (x & E & X); [|discriminate E]. injection E as ->. assert (Q : In (n, false) (returned o)) by (apply in_flat_map; exists (OReturn n false); split; [exact X|now left]).
    rewrite R in Q. destruct Q.
  Qed.
  Lemma succeeded_app : forall a b, succeeded (a ++ b) <-> succeeded a \/ succeeded b.
  Proof. intros a b. unfold succeeded. setoid_rewrite in_app_iff. firstorder. Qed.
  Lemma run_asked : forall f format l s o, mrun (newMill f format) l = (s, o) -> asked o = [] -> ~ succeeded o.
  Proof.
    intros f format l s o E. replace o with (snd (mrun (newMill f format) l)) by now rewrite E. clear E.
    assert (G : (fun s o => shape (smill s) /\ (asked o = [] -> ~ succeeded o /\ (once (smill s) = false) /\ match spc s with Idle | Rotating _ => lfile (slog s) = None | Rotated => True | _ => False end))
      (fst (mrun (newMill f format) l)) (snd (mrun (newMill f format) l))); [|intro A; apply G; exact A].
    apply mrun_ind.
    { split; [split; [reflexivity|left; auto]|]. intros _. split; [|split; reflexivity]. intros [[n K]|K]; destruct K. }
    clear s o l. intros s o e (Sh & A). destruct (mstep s e) as [s' o'] eqn:E. cbn [fst snd]. apply step_seen in E; [|exact Sh]. split; [eapply seen_shape; eauto|]. rewrite asked_app. intro K.
    apply app_eq_nil in K. destruct K as [K1 K2]. specialize (A K1). destruct A as (A1 & A2 & A3). rewrite succeeded_app.
    destruct E as [C -> ->|N C St C' Lo Em Ao|N C St C' Lo Em Ao Es|M C Mi Ao].
    - split; [|auto]. intros [Y|[[n Y]|Y]]; [tauto|destruct Y..].
    - rewrite Em. assert (Z0 : ~ succeeded []) by (intros [[n Y]|Y]; destruct Y).
      destruct e; cbn [MillModel.stepC] in St; try (injection St as <- <-; now (split; [tauto|auto])); destruct (spc s) as [|p0 a0 a0' f0|p0 a0' f0|p0 a0' f0|p0 f0|p0 f0|a0|] eqn:P; try tauto;
        try (injection St as <- <-; rewrite ?P; now (split; [tauto|auto])).
      + destruct (max <? lenZ p); [injection St as <- <-; rewrite P; split; [|auto]; intros [Y|[[n Y]|Y]]; [tauto|destruct Y as [Y|[]]; discriminate Y..]|].
        rewrite A3 in St. injection St as <- <-. discriminate Ao.
      + injection St as <- <-. cbn [spc setLog slog]. split; [tauto|]. split; [exact A2|]. unfold close. rewrite A3. exact A3.
      + destruct (rotate mname mbackup (slog s) a0) as [[l err] o1] eqn:R. destruct (rotate_file _ _ _ _ _ _ _ R) as [F1 F2]. destruct (rotate_quiet _ _ _ _ _ _ _ R) as [_ Q].
        destruct err; injection St as <- <-; cbn [setLog spc slog].
        * split; [|split; [exact A2|auto]]. rewrite succeeded_app. intros [Y|[Y|[[n Y]|Y]]]; [tauto|exact (Log_succeeded _ Q Y)|destruct Y as [Y|[]]; discriminate Y..].
        * split; [|split; [exact A2|auto]]. intros [Y|Y]; [tauto|exact (Log_succeeded _ Q Y)].
      + injection St as <- <-. discriminate Ao.
    - congruence.
    - destruct Mi as [e|k w W P ->|k W En|k fails dirs now W M1 M2 M3|k dirs now W|k dirs now W Ch|k dirs now rm cs fm W Ch Fm Con|k fails x rm cs l' o' W St|k c x cs l' o' W St];
        [split; [|auto]; intros [Y|[[n Y]|Y]]; [tauto|destruct Y..]|exfalso; destruct Sh as [_ [(_ & _ & K)|(K & _)]]; congruence..].
  Qed.
  (** What a call that is under way will come to, without the mill in between *)
  Definition writes (l : logger) (p : bytes) (fails : option nat) : logger * list output :=
    match lfile l with
    | None => (l, [OReturn 0 true])
    | Some x =>
      let chunk := match fails with None => p | Some n => firstn n p end in
      let '(f, x) := fileWrite (lfs l) x chunk in
      (mkLogger f (int64 (size l + lenZ chunk)) (Some x), [OWrote chunk; OReturn (List.length chunk) (match fails with None => false | Some _ => true end)])
    end.
  Definition checks (l : logger) (p : bytes) (a' : answers) (fails : option nat) : logger * list output :=
    let '(l, err, o) := if max <? int64 (size l + lenZ p) then rotate mname mbackup l a' else (l, false, []) in
    if err then (l, o ++ [OReturn 0 true]) else let '(l, o') := writes l p fails in (l, o ++ o').
  Definition result (s : st) : logger * list output :=
    match spc s with
    | Idle | Rotated => (slog s, [])
    | Opening p a a' fails =>
      let '(l, err, o) := openExistingOrNew mname max mbackup (slog s) a (lenZ p) in
      if err then (l, o ++ [OReturn 0 true]) else let '(l, o') := checks l p a' fails in (l, o ++ o')
    | Opened p a' fails | Checking p a' fails => checks (slog s) p a' fails
    | Checked p fails | Writing p fails => writes (slog s) p fails
    | Rotating a => let '(l, _, o) := rotate mname mbackup (slog s) a in (l, o)
    end.
  Definition remaining (p : pc) : nat :=
    match p with Idle => 0 | Opening _ _ _ _ => 5 | Opened _ _ _ => 4 | Checking _ _ _ => 3 | Checked _ _ => 2 | Writing _ _ => 1 | Rotating _ => 2 | Rotated => 1 end.
  Lemma logs_end : forall o e, logs (map Log o ++ [Log e]) = o ++ [e].
  Proof. intros. now rewrite logs_app, logs_Log. Qed.
  Lemma stepC_result : forall s s' o, stepC s CStep = (s', o) -> result s = (fst (result s'), logs o ++ snd (result s')) /\ (remaining (spc s') <= pred (remaining (spc s)))%nat.
  Proof.
    intros s s' o E. cbn [MillModel.stepC] in E. unfold result at 1. destruct (spc s) as [|p a a' fails|p a' fails|p a' fails|p fails|p fails|a|] eqn:P.
    - injection E as <- <-. unfold result. rewrite P. auto.
    - destruct (openExistingOrNew mname max mbackup (slog s) a (lenZ p)) as [[l err] o1]. destruct err; injection E as <- <-.
      + unfold result. cbn [spc slog fst snd remaining pred]. rewrite logs_end, app_nil_r. auto with arith.
      + destruct (tooLarge dir filename max (slog s) a (lenZ p)); unfold result; cbn [setLog spc slog remaining pred]; rewrite logs_Log; destruct (checks l p a' fails); auto with arith.
    - injection E as <- <-. unfold result. cbn [spc slog remaining pred logs flat_map app]. destruct (checks (slog s) p a' fails). auto with arith.
    - unfold checks. destruct (max <? int64 (size (slog s) + lenZ p)).
      + destruct (rotate mname mbackup (slog s) a') as [[l err] o1]. destruct err; injection E as <- <-.
        * unfold result. cbn [spc slog fst snd remaining pred]. rewrite logs_end, app_nil_r. auto with arith.
        * unfold result. cbn [setLog spc slog remaining pred]. rewrite logs_Log. destruct (writes l p fails). auto with arith.
      + injection E as <- <-. unfold result. cbn [setLog spc slog remaining pred logs flat_map app]. destruct (writes (slog s) p fails). auto with arith.
    - injection E as <- <-. unfold result. cbn [spc slog remaining pred logs flat_map app]. destruct (writes (slog s) p fails). auto with arith.
    - unfold writes. destruct (lfile (slog s)) as [x|]; [|injection E as <- <-; auto].
      cbv zeta. destruct (fileWrite (lfs (slog s)) x match fails with None => p | Some n => firstn n p end) as [f y]. injection E as <- <-. auto.
    - destruct (rotate mname mbackup (slog s) a) as [[l err] o1]. destruct err; injection E as <- <-; unfold result; cbn [setLog spc slog fst snd remaining pred].
      + rewrite logs_app, logs_Log, !app_nil_r. auto with arith.
      + rewrite logs_Log, app_nil_r. auto.
    - injection E as <- <-. auto.
  Qed.
  Lemma finish_result : forall n s, crashed s = false -> (remaining (spc s) <= n)%nat -> forall s' o, mrun s (repeat CStep n) = (s', o) -> spc s' = Idle /\ crashed s' = false /\ (slog s', logs o) = result s.
  Proof.
    induction n as [|n IH]; intros s C L s' o E.
    - injection E as <- <-. assert (P : spc s = Idle) by (destruct (spc s); cbn in L; auto; lia). unfold result. rewrite P. auto.
    - cbn [repeat MillModel.mrun] in E. destruct (mstep s CStep) as [s1 o1] eqn:E1. rewrite mstep_C in E1 by auto. destruct (stepC_result _ _ _ E1) as [R Le]. destruct (stepC_mill _ _ _ _ E1) as [C1 _].
      destruct (mrun s1 (repeat CStep n)) as [s2 o2] eqn:E2. injection E as <- <-. destruct (IH s1 ltac:(congruence) ltac:(lia) _ _ E2) as (I1 & I2 & I3). split; [exact I1|]. split; [exact I2|].
      rewrite R, <- I3, logs_app. reflexivity.
  Qed.
  Lemma call_write : forall s p a a' fails s' o, crashed s = false -> spc s = Idle -> mrun s (CWrite p a a' fails :: repeat CStep 5) = (s', o) ->
    spc s' = Idle /\ crashed s' = false /\ (slog s', logs o) = Write mname max mbackup (slog s) p a a' fails.
  Proof.
    intros s p a a' fails s' o C P E. cbn [MillModel.mrun] in E. destruct (mstep s (CWrite p a a' fails)) as [s1 o1] eqn:E1. rewrite mstep_C in E1 by auto. destruct (stepC_mill _ _ _ _ E1) as [C1 _].
    destruct (mrun s1 (repeat CStep 5)) as [s2 o2] eqn:E2. injection E as <- <-. assert (R1 : (remaining (spc s1) <= 5)%nat) by (destruct (spc s1); cbn; lia).
    destruct (finish_result 5 s1 ltac:(congruence) R1 _ _ E2) as (I1 & I2 & I3). split; [exact I1|]. split; [exact I2|]. rewrite logs_app.
    cbn [MillModel.stepC] in E1. rewrite P in E1. unfold Write. destruct (max <? lenZ p).
    - injection E1 as <- <-. unfold result in I3. rewrite P in I3. injection I3 as -> ->. reflexivity.
    - destruct (lfile (slog s)) as [x|] eqn:F; injection E1 as <- <-; unfold result in I3; cbn [setLog spc slog] in I3.
      + unfold checks in I3. destruct (if max <? int64 (size (slog s) + lenZ p) then rotate mname mbackup (slog s) a' else (slog s, false, [])) as [[l err] o'].
        destruct err; [exact I3|]. unfold writes in I3. destruct (lfile l); [|exact I3]. cbv zeta in *. destruct (fileWrite (lfs l) f match fails with None => p | Some n => firstn n p end). exact I3.
      + cbn [logs flat_map app]. destruct (openExistingOrNew mname max mbackup (slog s) a (lenZ p)) as [[l err] o']. destruct err; [exact I3|]. unfold checks in I3.
        destruct (if max <? int64 (size l + lenZ p) then rotate mname mbackup l a' else (l, false, [])) as [[l1 err] o''].
        destruct err; [exact I3|]. unfold writes in I3. destruct (lfile l1); [|exact I3]. cbv zeta in *. destruct (fileWrite (lfs l1) f match fails with None => p | Some n => firstn n p end). exact I3.
  Qed.
  Lemma call_rotate : forall s a s' o, crashed s = false -> spc s = Idle -> mrun s (CRotate a :: repeat CStep 5) = (s', o) ->
    spc s' = Idle /\ crashed s' = false /\ (slog s', logs o) = LumberModel.step mname max mbackup gzip (slog s) (ERotate a).
  Proof.
    intros s a s' o C P E. cbn [MillModel.mrun] in E. destruct (mstep s (CRotate a)) as [s1 o1] eqn:E1. rewrite mstep_C in E1 by auto. destruct (stepC_mill _ _ _ _ E1) as [C1 _].
    destruct (mrun s1 (repeat CStep 5)) as [s2 o2] eqn:E2. injection E as <- <-. assert (R1 : (remaining (spc s1) <= 5)%nat) by (destruct (spc s1); cbn; lia).
    destruct (finish_result 5 s1 ltac:(congruence) R1 _ _ E2) as (I1 & I2 & I3). split; [exact I1|]. split; [exact I2|]. rewrite logs_app.
    cbn [MillModel.stepC] in E1. rewrite P in E1. injection E1 as <- <-. exact I3.
  Qed.
  (** Calls do not wait for the mill *)
  Lemma mill_pc : forall s e s' o, of_mill e -> stepM s e = (s', o) -> spc s' = spc s.
  Proof.
    intros s e s' o M E. destruct e; cbn in M; try tauto; cbn [MillModel.stepM] in E; destruct (nth_error (workers (smill s)) k) as [w|]; try (injection E as <- _; reflexivity).
    - destruct w; try (injection E as <- _; reflexivity). destruct (pending (smill s)); [injection E as <- _; reflexivity|]. destruct (ended (smill s)); injection E as <- _; reflexivity.
    - destruct w; try (injection E as <- _; reflexivity). destruct (_ && _ && _); [injection E as <- _; reflexivity|]. destruct fails; [injection E as <- _; reflexivity|].
      destruct (millChoice _ _ _ _ _ _ _ _) as [[rm cs]|]; injection E as <- _; reflexivity.
    - destruct w as [| |[|x rm] cs|]; try (injection E as <- _; reflexivity). destruct fails; [injection E as <- _; reflexivity|].
      destruct (LumberModel.step mname max mbackup gzip (slog s) (ERemove (dir ++ Name x))) as [l o1]. injection E as <- _. reflexivity.
    - destruct w as [| |[|y rm] [|x cs]|]; try (injection E as <- _; reflexivity).
      destruct (LumberModel.step mname max mbackup gzip (slog s) (ECompress (dir ++ Name x) c)) as [l o1]. injection E as <- _. reflexivity.
  Qed.
  Lemma call_ends : forall l s s' o, Forall no_call l -> (remaining (spc s) <= steps l)%nat -> mrun s l = (s', o) -> crashed s' = false -> spc s' = Idle.
  Proof.
    assert (Cr : forall l s, crashed s = true -> mrun s l = (s, [])).
    { induction l as [|e l IH]; intros s C; [reflexivity|]. cbn [MillModel.mrun]. unfold MillModel.mstep. rewrite C. now rewrite (IH s C). }
    induction l as [|e l IH]; intros s s' o F L E C.
    - injection E as <- _. destruct (spc s); cbn in L; auto; lia.
    - cbn [MillModel.mrun] in E. destruct (mstep s e) as [s1 o1] eqn:E1. destruct (mrun s1 l) as [s2 o2] eqn:E2. injection E as <- <-. pose proof (Forall_inv F) as Fe. apply Forall_inv_tail in F.
      destruct (crashed s) eqn:C0.
      { unfold MillModel.mstep in E1. rewrite C0 in E1. injection E1 as <- _. rewrite (Cr l s C0) in E2. injection E2 as <- _. congruence. }
      apply (IH s1 s2 o2 F); [|exact E2|exact C]. destruct e; cbn [no_call] in Fe; try tauto; unfold steps in L; cbn [filter] in L; fold (steps l) in L.
      + cbn [List.length] in L. change (List.length (filter _ l)) with (steps l) in L. rewrite mstep_C in E1 by auto. destruct (stepC_result _ _ _ E1) as [_ Q]. lia.
      + rewrite mstep_M in E1 by (auto; exact I). rewrite (mill_pc _ (MReceive k) s1 o1 I E1). exact L.
      + rewrite mstep_M in E1 by (auto; exact I). rewrite (mill_pc _ (MList k fails dirs now) s1 o1 I E1). exact L.
      + rewrite mstep_M in E1 by (auto; exact I). rewrite (mill_pc _ (MRemove k fails) s1 o1 I E1). exact L.
      + rewrite mstep_M in E1 by (auto; exact I). rewrite (mill_pc _ (MCompress k c) s1 o1 I E1). exact L.
  Qed.

  (** * The mill comes to rest *)

  Lemma unlink_length : forall l p, (List.length (unlink l p) <= List.length l)%nat.
  Proof. intros l p. unfold unlink. induction l as [|x l IH]; [apply le_n|]. cbn [filter]. destruct (negb (streq (fst x) p)); cbn; lia. Qed.
  Lemma link_length : forall l p i, (List.length (link l p i) <= S (List.length l))%nat.
  Proof. intros l p i. unfold link. cbn. pose proof (unlink_length l p). lia. Qed.
  Lemma backupsIn_length : forall files l, backupsIn parse filename files = Some l -> (List.length l <= List.length (filter (fun x => negb (snd x)) files))%nat.
  Proof.
    induction files as [|[n d] files IH]; intros l E; [injection E as <-; apply le_n|]. cbn [backupsIn] in E. cbn [filter snd]. destruct d; cbn [negb]; [auto|].
    destruct (prefixAndExt filename) as [prefix ext]. cbn [List.length].
    assert (Q : forall t, (let? l := backupsIn parse filename files in Some (mkInfo t n :: l)) = Some l -> (List.length l <= S (List.length (filter (fun x => negb (snd x)) files)))%nat).
    { intros t K. destruct (backupsIn parse filename files) as [l'|]; [|discriminate K]. cbn [obind] in K. injection K as <-. specialize (IH _ eq_refl). cbn. lia. }
    destruct (timeFromName parse n prefix ext) as [| |t]; [discriminate E| |exact (Q t E)].
    destruct (timeFromName parse n prefix (ext ++ bs ".gz")) as [| |t]; [discriminate E| |exact (Q t E)]. specialize (IH _ E). lia.
  Qed.
  Lemma readDir_length : forall f dirs, (List.length (filter (fun x => negb (snd x)) (readDir dir f dirs)) <= List.length (links f))%nat.
  Proof.
    intros f dirs. unfold readDir. rewrite filter_app, app_length.
    assert (A : forall l, List.length (filter (fun x : bytes * bool => negb (snd x)) (map (fun n => (n, true)) l)) = 0%nat) by (induction l as [|x l IH]; [reflexivity|exact IH]).
    assert (B : forall l, List.length (filter (fun x : bytes * bool => negb (snd x)) (map (fun n => (n, false)) l)) = List.length l) by (induction l as [|x l IH]; [reflexivity|cbn; now rewrite IH]).
    rewrite A, B, Nat.add_0_r. etransitivity; [apply NoDup_incl_length; [apply NoDup_nodup|intros z Z0; apply nodup_In in Z0; exact Z0]|].
    induction (links f) as [|x l IH]; [apply le_n|]. cbn [flat_map]. rewrite app_length. cbn [List.length]. assert (L : (List.length (inDir dir (fst x)) <= 1)%nat) by (unfold inDir; destruct (hasPrefix _ _); [destruct (existsb _ _)|]; cbn; lia). lia.
  Qed.
  Lemma chosen_length : forall f dirs now rm cs, sorts sort -> millChoice parse sort filename MaxBackups MaxAge Compress now (readDir dir f dirs) = Some (rm, cs) -> (List.length rm + List.length cs <= List.length (links f))%nat.
  Proof.
    intros f dirs now rm cs Sr E. pose proof (readDir_length f dirs) as Lr. unfold millChoice in E. destruct (_ && _ && _); [injection E as <- <-; cbn; lia|]. unfold oldLogFiles in E.
    destruct (backupsIn parse filename (readDir dir f dirs)) as [l|] eqn:B; [|discriminate E]. apply backupsIn_length in B. cbv beta iota zeta delta [obind] in E. destruct (Sr l) as [P _]. apply Permutation_length in P.
    set (old := sort l) in *. assert (Lo : (List.length old <= List.length (links f))%nat) by lia. clearbody old. clear B P Lr l.
    assert (Fl : forall (A : Type) (g : A -> bool) l, (List.length (filter g l) <= List.length l)%nat) by (intros A g l; induction l as [|x l IH]; [apply le_n|]; cbn; destruct (g x); cbn; lia).
    assert (Fs : forall (A : Type) (g : A -> bool) l, (List.length (filter g l) + List.length (filter (fun x => negb (g x)) l) = List.length l)%nat) by (intros A g l; induction l as [|x l IH]; [reflexivity|]; cbn; destruct (g x); cbn; lia).
    set (r := if (0 <? MaxBackups) && (MaxBackups <? lenZ old) then _ else _) in E. destruct r as [rest rm1] eqn:R. subst r.
    assert (A : (List.length rest + List.length rm1 <= List.length old)%nat).
    { destruct ((0 <? MaxBackups) && (MaxBackups <? lenZ old)); [|injection R as <- <-; cbn; lia]. destruct (byCount_split MaxBackups old [] (NoDup_nil _)) as (j & J1 & J2 & J3 & J4). rewrite J2 in R. injection R as <- <-.
      rewrite firstn_length, skipn_length. lia. }
    set (r := if 0 <? MaxAge then _ else _) in E. destruct r as [rest' rm2] eqn:R'. subst r.
    assert (A' : (List.length rest' + List.length rm2 <= List.length old)%nat).
    { destruct (0 <? MaxAge); injection R' as <- <-; [|lia]. rewrite app_length. pose proof (Fs _ (fun f => timestamp f <? cutoffOf MaxAge now) rest). lia. }
    injection E as <- <-. destruct Compress; [match goal with |- context [filter ?g rest'] => pose proof (Fl _ g rest') end|cbn]; lia.
  Qed.
  Definition bound (s : st) : nat :=
    let L := List.length (links (lfs (slog s))) in
    match workers (smill s) with
    | [Waiting] => if pending (smill s) then 2 + L else 0
    | [Awake] => 1 + L + (if pending (smill s) then 2 + 2 * L else 0)
    | [Working rm cs] => let W := (List.length rm + List.length cs)%nat in W + (if pending (smill s) then 2 + L + W else 0)
    | _ => 0
    end.
  Lemma mills_less : forall s e s' o, sorts sort -> shape (smill s) -> mills s e s' o -> (s', o) = (s, []) \/ crashed s' = true /\ (1 <= bound s)%nat \/ (bound s' < bound s)%nat.
  Proof.
    intros s e s' o Sr Sh M.
    assert (Gb : forall l pd fm rm cs, (bound (mkSt l (spc s) (mkMill (once (smill s)) pd (ended (smill s)) [going rm cs]) fm (crashed s)) <= (List.length rm + List.length cs) + (if pd then 2 + List.length (links (lfs l)) + (List.length rm + List.length cs) else 0))%nat).
    { intros l pd fm [|x rm] [|y cs]; unfold bound; cbn [smill workers pending slog going]; destruct pd; cbn [List.length]; lia. }
    destruct M as [e|k w W P ->|k W En|k fails dirs now W M1 M2 M3|k dirs now W|k dirs now W Ch|k dirs now rm cs fm W Ch Fm Con|k fails x rm cs l o W St|k c x cs l o W St].
    - now left.
    - right. right. unfold bound. rewrite W, P. cbn [smill workers pending slog]. lia.
    - destruct Sh as [K _]. congruence.
    - right. right. unfold bound. rewrite W. cbn [smill workers pending slog]. destruct (pending (smill s)); lia.
    - right. right. unfold bound. rewrite W. cbn [smill workers pending slog]. destruct (pending (smill s)); lia.
    - right. left. unfold bound. rewrite W. split; [reflexivity|lia].
    - right. right. eapply Nat.le_lt_trans; [apply Gb|]. unfold bound. rewrite W. apply chosen_length in Ch; [|exact Sr]. cbn [slog]. destruct (pending (smill s)); lia.
    - right. right. eapply Nat.le_lt_trans; [apply Gb|]. unfold bound. rewrite W.
      assert (Ll : (List.length (links (lfs l)) <= List.length (links (lfs (slog s))))%nat).
      { destruct fails; [injection St as <- _; lia|]. cbn [LumberModel.step] in St. destruct (find _ _) in St; injection St as <- _; cbn [lfs links]; [apply unlink_length|lia]. }
      cbn [List.length]. destruct (pending (smill s)); lia.
    - right. right. eapply Nat.le_lt_trans; [apply Gb|]. unfold bound. rewrite W.
      assert (Ll : (List.length (links (lfs l)) <= S (List.length (links (lfs (slog s)))))%nat).
      { cbn [LumberModel.step] in St. unfold compress in St. destruct (find (links (lfs (slog s))) (dir ++ Name x)) as [i|]; [|apply pair_equal_spec in St as [<- _]; cbn [lfs links]; lia].
        destruct c; apply pair_equal_spec in St as [<- _]; cbn [lfs links replace].
        - etransitivity; [apply unlink_length|apply link_length].
        - lia.
        - apply link_length.
        - etransitivity; [apply unlink_length|lia]. }
      cbn [List.length]. destruct (pending (smill s)); lia.
  Qed.
  Lemma effective_length : sorts sort -> forall l s, shape (smill s) -> Forall of_mill l -> effective mstep s l -> (List.length l <= bound s)%nat.
  Proof.
    intros Sr. induction l as [|e l IH]; intros s Sh F E; [cbn; lia|]. destruct E as [E1 E2]. pose proof (Forall_inv F) as Fe. apply Forall_inv_tail in F.
    destruct (mstep s e) as [s1 o1] eqn:S. cbn [fst] in E2. pose proof (step_seen _ _ _ _ Sh S) as Se. pose proof (seen_shape _ _ _ _ Sh Se) as Sh1.
    destruct Se as [C -> ->|N _ _ _ _ _ _|N _ _ _ _ _ _ _|M C Mi Ao]; try tauto; try congruence. destruct (mills_less _ _ _ _ Sr Sh Mi) as [K|[[K1 K2]|K]].
    - congruence.
    - destruct l as [|e2 l]; [cbn; lia|]. destruct E2 as [E2 _]. exfalso. apply E2. unfold MillModel.mstep. now rewrite K1.
    - specialize (IH s1 Sh1 F E2). cbn. lia.
  Qed.

  (** * Only what was chosen is touched *)

  Notation choice := (millChoice parse sort filename MaxBackups MaxAge Compress).
  Definition justified (o : list mout) (p : bytes) : Prop := exists files now remove compress x, In (Listed files now) o /\ choice now files = Some (remove, compress) /\
    (In x remove /\ p = dir ++ Name x \/ In x compress /\ (p = dir ++ Name x \/ p = dir ++ Name x ++ bs ".gz")).
  Lemma openNew_milled : forall name backup s a l err o, openNew name backup s a = (l, err, o) -> milled o = [].
  Proof.
    intros name backup s a l err o E. unfold openNew in E. destruct (aMkdir a); [injection E as _ _ <-; reflexivity|].
    assert (Cr : forall f o', milled o' = [] -> (if aCreate a then (mkLogger f (size s) (lfile s), true, o') else let '(f, x) := createTrunc f name in (mkLogger f 0 (Some x), false, o')) = (l, err, o) -> milled o = []).
    { intros f o' M K. destruct (aCreate a); [injection K as _ _ <-; exact M|]. destruct (createTrunc f name) as [f' x]. injection K as _ _ <-. exact M. }
    destruct (find (links (lfs s)) name) as [i|]; [|eapply Cr; [|exact E]; reflexivity]. destruct (aStatNew a); [eapply Cr; [|exact E]; reflexivity|]. destruct (aRename a); [injection E as _ _ <-; reflexivity|].
    destruct (aChownOpen a); [injection E as _ _ <-; reflexivity|]. destruct (createTrunc _ name) as [f x] in E. destruct (aChown a); [injection E as _ _ <-; reflexivity|]. eapply Cr; [|exact E]. reflexivity.
  Qed.
  Lemma rotate_milled : forall name backup s a l err o, rotate name backup s a = (l, err, o) -> milled o = [].
  Proof. intros name backup s a l err o E. unfold rotate in E. destruct (close s (aClose a)) as [s1 e1]. destruct e1; [injection E as _ _ <-; reflexivity|]. eapply openNew_milled; eauto. Qed.
  Lemma opens_milled : forall name m backup s a n l err o, openExistingOrNew name m backup s a n = (l, err, o) -> milled o = [].
  Proof.
    intros name m backup s a n l err o E. unfold openExistingOrNew in E. destruct (find (links (lfs s)) name) as [i|].
    - destruct (aStat a); [injection E as _ _ <-; reflexivity|]. destruct (m <=? _); [eapply rotate_milled; eauto|]. destruct (aAppend a); [eapply openNew_milled; eauto|]. injection E as _ _ <-. reflexivity.
    - destruct (aStat a); [injection E as _ _ <-; reflexivity|]. eapply openNew_milled; eauto.
  Qed.
  Lemma stepC_milled : forall s e s' o, stepC s e = (s', o) -> milled (logs o) = [].
  Proof.
    intros s e s' o E. destruct e; cbn [MillModel.stepC] in E; try (injection E as _ <-; reflexivity).
    - destruct (spc s); try (injection E as _ <-; reflexivity). destruct (max <? lenZ p); [injection E as _ <-; reflexivity|]. destruct (lfile (slog s)); injection E as _ <-; reflexivity.
    - destruct (spc s); injection E as _ <-; reflexivity.
    - destruct (spc s); injection E as _ <-; reflexivity.
    - destruct (spc s) as [|p a a' fails|p a' fails|p a' fails|p fails|p fails|a|]; try (injection E as _ <-; reflexivity).
      + destruct (openExistingOrNew mname max mbackup (slog s) a (lenZ p)) as [[l err] o1] eqn:O. apply opens_milled in O. destruct err; injection E as _ <-; rewrite ?logs_app, logs_Log, ?milled_app, O; reflexivity.
      + destruct (max <? int64 (size (slog s) + lenZ p)); [|injection E as _ <-; reflexivity]. destruct (rotate mname mbackup (slog s) a') as [[l err] o1] eqn:O. apply rotate_milled in O. destruct err; injection E as _ <-; rewrite ?logs_app, logs_Log, ?milled_app, O; reflexivity.
      + destruct (lfile (slog s)) as [x|]; [|injection E as _ <-; reflexivity]. destruct (fileWrite (lfs (slog s)) x match fails with None => p | Some n => firstn n p end) as [f y]. injection E as _ <-; reflexivity.
      + destruct (rotate mname mbackup (slog s) a) as [[l err] o1] eqn:O. apply rotate_milled in O. destruct err; injection E as _ <-; rewrite ?logs_app, logs_Log, ?milled_app, O; reflexivity.
  Qed.
  Lemma justified_app : forall o o' p, justified o p -> justified (o ++ o') p.
  Proof. intros o o' p (files & now & rm & cs & x & A & B). exists files, now, rm, cs, x. split; [apply in_or_app; now left|exact B]. Qed.
  Definition pledged (s : st) (o : list mout) : Prop := forall rm cs, workers (smill s) = [Working rm cs] ->
    exists files now remove compress, In (Listed files now) o /\ choice now files = Some (remove, compress) /\ incl rm remove /\ incl cs compress.
  Lemma pledged_app : forall s s' o o', workers (smill s') = workers (smill s) -> pledged s o -> pledged s' (o ++ o').
  Proof. intros s s' o o' W P rm cs K. rewrite W in K. destruct (P rm cs K) as (files & now & remove & compress & A & B). exists files, now, remove, compress. split; [apply in_or_app; now left|exact B]. Qed.
  Lemma going_working : forall rm cs rm' cs', [going rm cs] = [Working rm' cs'] -> rm' = rm /\ cs' = cs.
  Proof. intros [|x rm] [|y cs] rm' cs' E; try discriminate E; injection E as <- <-; auto. Qed.
  Lemma run_justified : forall f format l s o, mrun (newMill f format) l = (s, o) -> forall p, In p (milled (logs o)) -> justified o p.
  Proof.
    intros f format l s o E. replace o with (snd (mrun (newMill f format) l)) by now rewrite E. clear E.
    assert (G : (fun s o => shape (smill s) /\ pledged s o /\ forall p, In p (milled (logs o)) -> justified o p) (fst (mrun (newMill f format) l)) (snd (mrun (newMill f format) l))); [|apply G].
    apply mrun_ind.
    { split; [split; [reflexivity|left; auto]|]. split; [intros rm cs K; discriminate K|intros p []]. }
    clear s o l. intros s o e (Sh & Pl & Ju). destruct (mstep s e) as [s' o'] eqn:E. cbn [fst snd]. apply step_seen in E; [|exact Sh]. split; [eapply seen_shape; eauto|].
    assert (Old : milled (logs o') = [] -> forall p, In p (milled (logs (o ++ o'))) -> justified (o ++ o') p).
    { intros Q p. rewrite logs_app, milled_app, Q, app_nil_r. intro K. apply justified_app. auto. }
    destruct E as [C -> ->|N C St C' Lo Em Ao|N C St C' Lo Em Ao Es|M C Mi Ao].
    - rewrite app_nil_r. auto.
    - split; [eapply pledged_app; [now rewrite Em|exact Pl]|]. apply Old. eapply stepC_milled; eauto.
    - split; [|apply Old; eapply stepC_milled; eauto]. destruct (ask_shape _ Sh) as (_ & _ & _ & w & W & W'). intros rm cs K. rewrite Em, W in K. injection K as ->.
      destruct W' as [W'|[_ K]]; [|discriminate K]. destruct (Pl _ _ W') as (files & now & remove & compress & A & B). exists files, now, remove, compress. split; [apply in_or_app; now left|exact B].
    - destruct Mi as [e|k w W P ->|k W En|k fails dirs now W M1 M2 M3|k dirs now W|k dirs now W Ch|k dirs now rm cs fm W Ch Fm Con|k fails x rm cs l o' W St|k c x cs l o' W St].
      + rewrite app_nil_r. auto.
      + split; [intros rm cs K; discriminate K|]. now apply Old.
      + split; [intros rm cs K; discriminate K|]. now apply Old.
      + split; [intros rm cs K; discriminate K|]. now apply Old.
      + split; [intros rm cs K; discriminate K|]. now apply Old.
      + split; [intros rm cs K; cbn [smill] in K; congruence|]. now apply Old.
      + split; [|now apply Old]. intros rm' cs' K. apply going_working in K. destruct K as [-> ->]. exists (readDir dir (lfs (slog s)) dirs), now, rm, cs. split; [apply in_or_app; right; now left|]. split; [exact Ch|]. split; apply incl_refl.
      + destruct (Pl _ _ W) as (files & now & remove & compress & A & B & I1 & I2). split.
        * intros rm' cs' K. apply going_working in K. destruct K as [-> ->]. exists files, now, remove, compress. split; [apply in_or_app; now left|]. split; [exact B|]. split; [|exact I2]. intros y Y. apply I1. now right.
        * intros p K. rewrite logs_app, milled_app, logs_Log in K. apply in_app_or in K. destruct K as [K|K]; [apply justified_app; auto|]. exists files, now, remove, compress, x. split; [apply in_or_app; now left|]. split; [exact B|]. left.
          split; [apply I1; now left|]. destruct fails; [injection St as _ <-; destruct K|]. cbn [LumberModel.step] in St. destruct (find _ _) in St; injection St as _ <-; [|destruct K]. destruct K as [<-|[]]. reflexivity.
      + destruct (Pl _ _ W) as (files & now & remove & compress & A & B & I1 & I2). split.
        * intros rm' cs' K. apply going_working in K. destruct K as [-> ->]. exists files, now, remove, compress. split; [apply in_or_app; now left|]. split; [exact B|]. split; [exact I1|]. intros y Y. apply I2. now right.
        * intros p K. rewrite logs_app, milled_app, logs_Log in K. apply in_app_or in K. destruct K as [K|K]; [apply justified_app; auto|]. exists files, now, remove, compress, x. split; [apply in_or_app; now left|]. split; [exact B|]. right.
          split; [apply I2; now left|]. cbn [LumberModel.step] in St. unfold LumberModel.compress in St. destruct (find (links (lfs (slog s))) (dir ++ Name x)) as [i|]; [|apply pair_equal_spec in St as [_ <-]; destruct K].
          rewrite <- app_assoc in St. destruct c; apply pair_equal_spec in St as [_ <-]; cbn in K; intuition.
  Qed.

  (** * BackupTimeFormat, and panics *)
  Lemma step_format : forall s e, noFormat s = false -> noFormat (fst (mstep s e)) = false.
  Proof.
    intros s e N. unfold MillModel.mstep. destruct (crashed s); [exact N|].
    assert (C : noFormat (fst (stepC s e)) = false).
    { destruct e; cbn [MillModel.stepC]; try exact N; destruct (spc s); try exact N.
      - destruct (max <? lenZ p); [exact N|]. destruct (lfile (slog s)); exact N.
      - destruct (openExistingOrNew mname max mbackup (slog s) a (lenZ p)) as [[l err] o1]. unfold unformatted. rewrite N. destruct err; reflexivity.
      - destruct (max <? int64 (size (slog s) + lenZ p)); [|exact N]. destruct (rotate mname mbackup (slog s) a') as [[l err] o1]. unfold unformatted. rewrite N. destruct err; reflexivity.
      - destruct (lfile (slog s)); [|exact N]. destruct (fileWrite (lfs (slog s)) f match fails with None => p | Some n => firstn n p end). exact N.
      - destruct (rotate mname mbackup (slog s) a) as [[l err] o1]. unfold unformatted. rewrite N. destruct err; reflexivity. }
    destruct e; try exact C; cbn [MillModel.stepM]; destruct (nth_error (workers (smill s)) k) as [w|]; try exact N; destruct w as [| |rm cs|]; try exact N.
    - destruct (pending (smill s)); [exact N|]. destruct (ended (smill s)); exact N.
    - destruct (_ && _ && _); [exact N|]. destruct fails; [exact N|]. destruct (choice now (readDir dir (lfs (slog s)) dirs)) as [[rm cs]|]; [|exact N]. cbn. now rewrite N.
    - destruct rm as [|x rm]; [exact N|]. destruct (if fails then (slog s, []) else LumberModel.step mname max mbackup gzip (slog s) (ERemove (dir ++ Name x))) as [l o]. exact N.
    - destruct rm; [|exact N]. destruct cs as [|x cs]; [exact N|]. destruct (LumberModel.step mname max mbackup gzip (slog s) (ECompress (dir ++ Name x) c)) as [l o]. exact N.
  Qed.
  Lemma no_race : forall s, noFormat s = false -> ~ race (usesC dir filename max) (usesM dir filename MaxBackups MaxAge Compress) s.
  Proof.
    intros s N (k & a & b & A & B & C).
    assert (A' : a = false).
    { unfold usesC in A. rewrite N in A. destruct (spc s); try discriminate A; repeat match type of A with (if ?c then _ else _) = Some _ => destruct c end; congruence. }
    assert (B' : b = false).
    { unfold usesM in B. destruct (nth_error (workers (smill s)) k) as [w|]; [|discriminate B]. destruct w; try discriminate B. destruct (_ || _); congruence. }
    subst. destruct C; discriminate.
  Qed.
  Lemma openNew_backup : forall l a, aRename a = false ->
    (exists p, In (OBackup p) (snd (openNew mname mbackup l a))) <->
    match find (links (lfs l)) mname with Some _ => negb (aMkdir a) && negb (aStatNew a) | None => false end = true.
  Proof.
    intros l a R. unfold openNew. rewrite R. destruct (aMkdir a).
    - destruct (find (links (lfs l)) mname); cbn; (split; [intros (? & [])|discriminate]).
    - destruct (find (links (lfs l)) mname).
      + destruct (aStatNew a); cbn [negb andb].
        * destruct (aCreate a); [|destruct (createTrunc (lfs l) mname)]; cbn; (split; [intros (? & [])|discriminate]).
        * split; [auto|]. intros _. exists (mbackup (aTime a)).
          destruct (aChownOpen a); [now left|]. destruct (createTrunc _ mname). destruct (aChown a); [now left|].
          destruct (aCreate a); [now left|]. destruct (createTrunc f mname). now left.
      + destruct (aCreate a); [|destruct (createTrunc (lfs l) mname)]; cbn; (split; [intros (? & [])|discriminate]).
  Qed.
  Lemma rotate_backup : forall s a, aRename a = false ->
    (exists p, In (OBackup p) (snd (rotate mname mbackup (slog s) a))) <->
    (if match lfile (slog s) with Some _ => negb (aClose a) | None => true end then formats dir filename s a else false) = true.
  Proof.
    intros s a R. unfold rotate, close, formats. destruct (lfile (slog s)).
    - destruct (aClose a); cbn [negb].
      + cbn. split; [intros (? & [])|discriminate].
      + exact (openNew_backup (mkLogger (lfs (slog s)) (size (slog s)) None) a R).
    - exact (openNew_backup (slog s) a R).
  Qed.
  Lemma in_logs : forall p l r, (forall p, ~ In (Log (OBackup p)) r) -> In (Log (OBackup p)) (map Log l ++ r) <-> In (OBackup p) l.
  Proof.
    intros p l r N. split.
    - intro H. apply in_app_or in H as [H|H]; [|destruct (N _ H)]. apply in_map_iff in H as (x & X & H). congruence.
    - intro H. apply in_or_app. left. now apply in_map.
  Qed.
  Lemma format_set : forall s s' o a, answersOf (spc s) = Some a -> aRename a = false -> crashed s = false -> noFormat s = true ->
    mstep s CStep = (s', o) -> (noFormat s' = false <-> exists p, In (Log (OBackup p)) o).
  Proof.
    intros s s' o a A R C N E. unfold MillModel.mstep in E. rewrite C in E. cbn [MillModel.stepC] in E.
    assert (U : forall o1 b, ((exists p, In (OBackup p) o1) <-> b = true) -> forall o2, (forall p, In (Log (OBackup p)) o2 <-> In (OBackup p) o1) ->
      (noFormat s && match (if b then Some true else None) with Some _ => false | None => true end = false <-> exists p, In (Log (OBackup p)) o2)).
    { intros o1 b B o2 O. rewrite N. destruct b; cbn.
      - split; [|reflexivity]. intros _. destruct (proj2 B eq_refl) as (p & P). exists p. now apply O.
      - split; [discriminate|]. intros (p & P). apply O in P. enough (false = true) by discriminate. apply B. eauto. }
    assert (T1 : forall l p, In (Log (OBackup p)) (map Log l) <-> In (OBackup p) l).
    { intros l p. rewrite <- (app_nil_r (map Log l)). apply in_logs. intros q []. }
    assert (T2 : forall l r p, (r = Log (OReturn 0 true) \/ r = Rotates true) -> In (Log (OBackup p)) (map Log l ++ [r]) <-> In (OBackup p) l).
    { intros l r p [-> | ->]; apply in_logs; intros q [Q|[]]; discriminate Q. }
    destruct (spc s) eqn:P; try discriminate A; cbn [answersOf] in A; injection A as ->.
    - destruct (openExistingOrNew mname max mbackup (slog s) a (lenZ p)) as [[l err] o1] eqn:OE.
      assert (B : (exists p, In (OBackup p) o1) <-> match usesC dir filename max s with Some _ => true | None => false end = true).
      { replace o1 with (snd (openExistingOrNew mname max mbackup (slog s) a (lenZ p))) by now rewrite OE. unfold usesC. rewrite P, N. unfold openExistingOrNew, tooLarge.
        fold mname. destruct (find (links (lfs (slog s))) mname) as [i|] eqn:F.
        - destruct (aStat a); [cbn; split; [intros (? & [])|discriminate]|]. cbn [negb andb]. destruct (max <=? _).
          + rewrite (rotate_backup s a R). destruct (match lfile (slog s) with Some _ => _ | None => _ end); [|tauto]. destruct (formats dir filename s a); tauto.
          + destruct (aAppend a); [|cbn; split; [intros (? & [])|discriminate]]. rewrite (openNew_backup (slog s) a R). unfold formats. fold mname. destruct (match find _ _ with Some _ => _ | None => _ end); tauto.
        - destruct (aStat a); [cbn; split; [intros (? & [])|discriminate]|].
          rewrite (openNew_backup (slog s) a R). unfold formats. fold mname. rewrite F. destruct (aAppend a); tauto. }
      destruct err; injection E as <- <-; cbn [noFormat setLog]; unfold unformatted; specialize (U o1 _ B); destruct (usesC dir filename max s); apply U; intro q; [apply T2; now left|apply T2; now left|apply T1|apply T1].
    - unfold unformatted in E. destruct (max <? int64 (size (slog s) + lenZ p)) eqn:M.
      + destruct (rotate mname mbackup (slog s) a) as [[l err] o1] eqn:OE.
        assert (B : (exists p, In (OBackup p) o1) <-> match usesC dir filename max s with Some _ => true | None => false end = true).
        { replace o1 with (snd (rotate mname mbackup (slog s) a)) by now rewrite OE. unfold usesC. rewrite P, N, M. cbn [andb].
          rewrite (rotate_backup s a R). destruct (match lfile (slog s) with Some _ => _ | None => _ end); [|tauto]. destruct (formats dir filename s a); tauto. }
        destruct err; injection E as <- <-; cbn [noFormat setLog]; specialize (U o1 _ B); destruct (usesC dir filename max s); apply U; intro q; [apply T2; now left|apply T2; now left|apply T1|apply T1].
      + injection E as <- <-. cbn [noFormat setLog]. rewrite N. split; [discriminate|intros (? & [])].
    - unfold unformatted in E. destruct (rotate mname mbackup (slog s) a) as [[l err] o1] eqn:OE.
      assert (B : (exists p, In (OBackup p) o1) <-> match usesC dir filename max s with Some _ => true | None => false end = true).
      { replace o1 with (snd (rotate mname mbackup (slog s) a)) by now rewrite OE. unfold usesC. rewrite P, N.
        rewrite (rotate_backup s a R). destruct (match lfile (slog s) with Some _ => _ | None => _ end); [|tauto]. destruct (formats dir filename s a); tauto. }
      destruct err; injection E as <- <-; cbn [noFormat setLog]; specialize (U o1 _ B); destruct (usesC dir filename max s); apply U; intro q; [apply T2; now right|apply T2; now right|apply T1|apply T1].
  Qed.
  Lemma run_alive : ~ In 45 (Ext filename) -> forall l s, shape (smill s) -> crashed s = false -> crashed (fst (mrun s l)) = false.
  Proof.
    intro No. induction l as [|e l IH]; intros s Sh C; [exact C|]. cbn [MillModel.mrun]. destruct (mstep s e) as [s1 o1] eqn:E. pose proof (step_seen _ _ _ _ Sh E) as Se. pose proof (seen_shape _ _ _ _ Sh Se) as Sh1.
    assert (C1 : crashed s1 = false).
    { destruct Se as [K _ _|_ _ _ K _ _ _|_ _ _ K _ _ _ _|_ _ Mi _]; try congruence. destruct Mi as [e|k w W P ->|k W En|k fails dirs now W M1 M2 M3|k dirs now W|k dirs now W Ch|k dirs now rm cs fm W Ch Fm Con|k fails x rm cs l' o W St|k c x cs l' o W St]; try exact C.
      destruct (C41_total parse sort filename MaxBackups MaxAge Compress now (readDir dir (lfs (slog s)) dirs) No) as (rm & cs & K). congruence. }
    specialize (IH s1 Sh1 C1). destruct (mrun s1 l) as [s2 o2]. exact IH.
  Qed.
End Proofs.
