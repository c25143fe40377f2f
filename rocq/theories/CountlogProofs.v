(** Proofs about the logging functions. *)
From Verif Require Import Base MsgfmtModel CountlogModel CountlogSpec.
Local Arguments Returns {A}.
Local Arguments Panics {A}.
Local Arguments Unfinished {A}.

Section Proofs.
  Context {W H : Type}.
  Variable E : environment W H.
  Notation state := (state W H).

  Lemma invoke_below : forall m event props now stack (s : state),
    gated m = true -> level_of m < MinLevel (st_levels s) ->
    invoke E m event props now stack s = Ret tt s.
  Proof.
    intros m event props now stack s G L.
    destruct m; try discriminate G; cbn [level_of] in L; cbn [invoke];
      unfold Trace, Debug, Info, Log, Ctx_Trace, Ctx_Debug, Ctx_Info, LevelTrace, LevelDebug, LevelInfo;
      rewrite (proj2 (Z.ltb_lt _ _) L); reflexivity.
  Qed.

  Lemma invokeCall_below : forall m event props now stack (s : state),
    call_level_of m < MinLevel (st_levels s) ->
    invokeCall E m event None props now stack s = Ret None s.
  Proof.
    intros m event props now stack s L.
    destruct m; cbn [call_level_of] in L; cbn [invokeCall];
      unfold TraceCall, DebugCall, InfoCall, Ctx_TraceCall, Ctx_DebugCall, Ctx_InfoCall, Ctx_LogAccess, LevelTrace, LevelDebug, LevelInfo;
      rewrite (proj2 (Z.ltb_lt _ _) L); reflexivity.
  Qed.

  Lemma invoke_suppressed : forall m event props now stack (s : state),
    suppressed m = true -> invoke E m event props now stack s = Ret tt s.
  Proof.
    intros m event props now stack s G. destruct m; try discriminate G. cbn [suppressed] in G.
    cbn [invoke]. unfold Ctx_Trace, LevelTrace. destruct (10 <? MinLevel (st_levels s)); [reflexivity|].
    rewrite G. reflexivity.
  Qed.

  (** A method that passes is a call of log from one frame below the caller. *)
  Lemma invoke_passes : forall m event props now stack (s : state), passes (MinLevel (st_levels s)) m ->
    exists f, invoke E m event props now stack s = ignore (log E (level_of m) event [] (context_of m) None props now (f :: stack) s).
  Proof.
    intros m event props now stack s [G S'].
    assert (L : gated m = true -> level_of m <? MinLevel (st_levels s) = false) by (intro A; apply Z.ltb_ge; apply G; exact A).
    clear G. destruct m; cbn [gated level_of suppressed context_of] in *; cbn [invoke];
      unfold Trace, Debug, Info, Warn, Error, Fatal, Log, Ctx_Trace, Ctx_Debug, Ctx_Info, Ctx_Warn, Ctx_Error, Ctx_Fatal,
        LevelTrace, LevelDebug, LevelInfo, LevelWarn, LevelError, LevelFatal;
      try (rewrite (L eq_refl)); try (rewrite S'); eexists; reflexivity.
  Qed.

  Lemma invokeCall_passes : forall m event props now stack (s : state), MinLevel (st_levels s) <= call_level_of m ->
    exists f, invokeCall E m event None props now stack s
      = returnNil (log E (call_level_of m) event (bs "call") (call_context_of m) None props now (f :: stack) s).
  Proof.
    intros m event props now stack s L. apply Z.ltb_ge in L.
    destruct m; cbn [call_level_of call_context_of] in *; cbn [invokeCall];
      unfold TraceCall, DebugCall, InfoCall, Ctx_TraceCall, Ctx_DebugCall, Ctx_InfoCall, Ctx_LogAccess, LevelTrace, LevelDebug, LevelInfo;
      rewrite L; eexists; reflexivity.
  Qed.

  Lemma invokeCall_fails : forall m event err props now stack (s : state),
    exists f, invokeCall E m event (Some err) props now stack s
      = log E (failure_level_of m) event (bs "call") (call_context_of m) (Some err) props now (f :: stack) s.
  Proof. 
    intros m event err props now stack s. destruct m; cbn [invokeCall failure_level_of call_context_of];
      unfold TraceCall, DebugCall, InfoCall, Ctx_TraceCall, Ctx_DebugCall, Ctx_InfoCall, Ctx_LogAccess, LevelWarn, LevelError;
      eexists; reflexivity.
  Qed.

  (** * Delivery *)
  Lemma guarded_delivers : forall r ev (s : state) ev' w',
    delivers E (MinCallLevel (st_levels s)) (r_stats r) (r_out r) ev (world s) ev' w' ->
    guarded E r ev s = (setWorld s w', (ev', Returned)).
  Proof.
    intros r ev s ev' w' D. unfold guarded. destruct r as [st stats out md]. cbn [r_stats r_out] in *.
    inversion D; subst.
    - rewrite H0. reflexivity.
    - rewrite (proj2 (Z.leb_le _ _) H0), H1, H2. reflexivity.
    - replace (MinCallLevel (st_levels s) <=? Level ev) with false by (symmetry; apply Z.leb_gt; exact H0).
      rewrite H1. reflexivity.
  Qed.

  Lemma guarded_breaks : forall r ev (s : state) ev' w',
    breaks E (MinCallLevel (st_levels s)) (r_stats r) (r_out r) ev (world s) ev' w' ->
    guarded E r ev s = (setWorld s w', (ev', Panicked)).
  Proof.
    intros r ev s ev' w' D. unfold guarded. destruct r as [st stats out md]. cbn [r_stats r_out] in *.
    inversion D; subst.
    - rewrite H0. reflexivity.
    - rewrite (proj2 (Z.leb_le _ _) H0), H1. reflexivity.
    - rewrite (proj2 (Z.leb_le _ _) H0), H1, H2. reflexivity.
    - replace (MinCallLevel (st_levels s) <=? Level ev) with false by (symmetry; apply Z.leb_gt; exact H0).
      rewrite H1. reflexivity.
  Qed.

  Lemma handleRoot_delivers : forall r ev (s : state) ev' w',
    delivers E (MinCallLevel (st_levels s)) (r_stats r) (r_out r) ev (world s) ev' w' ->
    handleRoot E r ev s = (setWorld s w', (ev', Returned)).
  Proof.
    intros r ev s ev' w' D. unfold handleRoot, handleFallback. rewrite (guarded_delivers _ _ _ _ _ D).
    destruct (r_mode r); reflexivity.
  Qed.

  Lemma newRootHandler_builds : forall st md (s : state) stats out w',
    builds E st (world s) stats out w' -> newRootHandler E st md s = (setWorld s w', Some (mkRoot st stats out md)).
  Proof. intros st md s stats out w' (w1 & A & B). unfold newRootHandler. rewrite A, B. reflexivity. Qed.

  Lemma log_cached : forall level event agg ctx props now stack (s : state) r ev' w',
    byEvent (others E s) event = Some (Root r) ->
    delivers E (MinCallLevel (st_levels (others E s))) (r_stats r) (r_out r) (mkEvent level ctx None now props)
      (world (others E s)) ev' w' -> Err ev' = None ->
    log E level event agg ctx None props now stack s = Ret None (setWorld (others E s) w').
  Proof.
    intros level event agg ctx props now stack s r ev' w' C D N. unfold log, getHandler. rewrite C.
    cbn [handlerHandle]. rewrite (handleRoot_delivers _ _ _ _ _ D), N. reflexivity.
  Qed.

  Lemma log_new : forall level event agg ctx props now f stack (s : state) stats out w1 ev' w',
    byEvent (others E s) event = None ->
    builds E (site_of_call ctx stack event agg props) (world (others E s)) stats out w1 ->
    delivers E (MinCallLevel (st_levels (others E s))) stats out (mkEvent level ctx None now props) w1 ev' w' -> Err ev' = None ->
    log E level event agg ctx None props now (f :: stack) s
    = Ret None (setWorld (storeEvent (others E s) event (Root (mkRoot (site_of_call ctx stack event agg props) stats out NormalMode))) w').
  Proof.
    intros level event agg ctx props now f stack s stats out w1 ev' w' C B D N. unfold log, getHandler. rewrite C.
    unfold newHandler.
    match goal with |- context [newRootHandler E ?x _ _] => replace x with (site_of_call ctx stack event agg props) end.
    2:{ unfold site_of_call, call_place, Caller. destruct stack; reflexivity. }
    rewrite (newRootHandler_builds _ NormalMode (others E s) _ _ _ B).
    cbn [handlerHandle].
    set (r := mkRoot _ _ _ _).
    rewrite (handleRoot_delivers r (mkEvent level ctx None now props) _ ev' w').
    2:{ exact D. }
    rewrite N. reflexivity.
  Qed.

  (** A panic of the handlers of the first site: the event is given to handlers made for an unknown place; the name is
      redirected from now on. *)
  Definition unknown_site (st : site) (props : list value) : site :=
    mkSite (Context st) (Func st) (bs "unknown") 0 (SiteEvent st) (Agg st) props.

  Lemma handleRoot_retry : forall r ev (s : state) ev1 w1 stats out w2 ev2 w3,
    r_mode r = NormalMode ->
    breaks E (MinCallLevel (st_levels s)) (r_stats r) (r_out r) ev (world s) ev1 w1 ->
    builds E (unknown_site (r_site r) (Properties ev1)) w1 stats out w2 ->
    delivers E (MinCallLevel (st_levels s)) stats out ev1 w2 ev2 w3 ->
    handleRoot E r ev s = (setWorld (storeEvent s (SiteEvent (r_site r)) (Redirector (r_site r))) w3, (ev2, Returned)).
  Proof.
    intros r ev s ev1 w1 stats out w2 ev2 w3 M B N D. unfold handleRoot. rewrite M, (guarded_breaks _ _ _ _ _ B).
    unfold nomalModeOnPanic. fold (unknown_site (r_site r) (Properties ev1)).
    rewrite (newRootHandler_builds _ FallbackMode (storeEvent (setWorld s w1) _ _) _ _ _ N).
    unfold handleFallback. erewrite guarded_delivers; [reflexivity|exact D].
  Qed.

  Lemma handleRoot_twice : forall r ev (s : state) ev1 w1 stats out w2 ev2 w3,
    r_mode r = NormalMode ->
    breaks E (MinCallLevel (st_levels s)) (r_stats r) (r_out r) ev (world s) ev1 w1 ->
    builds E (unknown_site (r_site r) (Properties ev1)) w1 stats out w2 ->
    breaks E (MinCallLevel (st_levels s)) stats out ev1 w2 ev2 w3 ->
    handleRoot E r ev s =
      (setWorld (storeEvent s (SiteEvent (r_site r)) (Redirector (r_site r)))
        (if MinLevel (st_levels s) <=? 20 then printStack E (loglogError E w3) else loglogError E w3), (ev2, Returned)).
  Proof.
    intros r ev s ev1 w1 stats out w2 ev2 w3 M B N D. unfold handleRoot. rewrite M, (guarded_breaks _ _ _ _ _ B).
    unfold nomalModeOnPanic. fold (unknown_site (r_site r) (Properties ev1)).
    rewrite (newRootHandler_builds _ FallbackMode (storeEvent (setWorld s w1) _ _) _ _ _ N).
    unfold handleFallback. rewrite (guarded_breaks _ _ _ ev2 w3) by exact D. reflexivity.
  Qed.

  (** After a panic: handlers for every place of the program by themselves. *)
  Definition placed_site (st : site) (stack : list frame) (props : list value) : site :=
    mkSite (Context st) (Func st) (f_file (call_place stack)) (f_line (call_place stack)) (SiteEvent st) (Agg st) props.

  Lemma log_redirected_new : forall level event agg ctx props now f stack (s : state) st stats out w1 ev' w',
    let s1 := others E (others E s) in
    let p := call_place stack in
    byEvent (others E s) event = Some (Redirector st) -> byPlace s1 (f_file p) (f_line p) = None ->
    builds E (placed_site st stack props) (world s1) stats out w1 ->
    delivers E (MinCallLevel (st_levels s1)) stats out (mkEvent level ctx None now props) w1 ev' w' -> Err ev' = None ->
    log E level event agg ctx None props now (f :: stack) s
    = Ret None (setWorld (storePlace s1 (f_file p) (f_line p) (mkRoot (placed_site st stack props) stats out FallbackMode)) w').
  Proof.
    intros level event agg ctx props now f stack s st stats out w1 ev' w' s1 p C P B D N. unfold log, getHandler. rewrite C.
    cbn [handlerHandle]. unfold redirectorHandle.
    replace (Caller 3 _) with p.
    2:{ unfold p, call_place, Caller. destruct stack; reflexivity. }
    fold s1. rewrite P. unfold p. fold (placed_site st stack props).
    change (Properties (mkEvent level ctx None now props)) with props. fold (placed_site st stack props).
    rewrite (newRootHandler_builds _ FallbackMode s1 _ _ _ B).
    erewrite handleRoot_delivers; [|exact D]. rewrite N. reflexivity.
  Qed.

  Lemma log_redirected : forall level event agg ctx props now f stack (s : state) st r ev' w',
    let s1 := others E (others E s) in
    let p := call_place stack in
    byEvent (others E s) event = Some (Redirector st) -> byPlace s1 (f_file p) (f_line p) = Some r ->
    delivers E (MinCallLevel (st_levels s1)) (r_stats r) (r_out r) (mkEvent level ctx None now props) (world s1) ev' w' -> Err ev' = None ->
    log E level event agg ctx None props now (f :: stack) s = Ret None (setWorld s1 w').
  Proof.
    intros level event agg ctx props now f stack s st r ev' w' s1 p C P D N. unfold log, getHandler. rewrite C.
    cbn [handlerHandle]. unfold redirectorHandle.
    replace (Caller 3 _) with p.
    2:{ unfold p, call_place, Caller. destruct stack; reflexivity. }
    fold s1. rewrite P. erewrite handleRoot_delivers; [|exact D]. rewrite N. reflexivity.
  Qed.

  (** * Returning *)
  Section Total.
    Hypothesis Sinks : sinks_never_panic E.
    Hypothesis Ends : handlers_end E.

    Lemma newRootHandler_total : forall st md (s : state), exists s' r, newRootHandler E st md s = (s', Some r).
    Proof.
      intros st md s. unfold newRootHandler.
      pose proof (proj1 Sinks st (world s)) as A. destruct (aggregatorHandlerOf E st (world s)) as [w [x|]]; [|contradiction A; reflexivity].
      pose proof (proj2 Sinks st w) as B. destruct (writerHandlerOf E st w) as [w' [o|]]; [|contradiction B; reflexivity].
      eexists. eexists. reflexivity.
    Qed.

    Lemma guarded_total : forall r ev (s : state), exists s' ev' e,
      guarded E r ev s = (s', (ev', e)) /\ e <> Blocked /\ Err ev' = Err ev.
    Proof.
      intros r ev s. unfold guarded. destruct (r_stats r) as [st|].
      - destruct (_ <=? _).
        + pose proof (Ends (r_out r) ev (world s)) as [A B]. destruct (handle E (r_out r) ev (world s)) as [w [ev1 e]].
          cbn [fst snd] in A, B. destruct e; [|now repeat eexists|contradiction A; reflexivity].
          pose proof (Ends st ev1 w) as [C D]. destruct (handle E st ev1 w) as [w' [ev2 e]]. cbn [fst snd] in C, D.
          repeat eexists; [exact C|congruence].
        + pose proof (Ends st ev (world s)) as [A B]. destruct (handle E st ev (world s)) as [w [ev1 e]]. now repeat eexists.
      - pose proof (Ends (r_out r) ev (world s)) as [A B]. destruct (handle E (r_out r) ev (world s)) as [w [ev1 e]]. now repeat eexists.
    Qed.

    Lemma handleFallback_total : forall r ev (s : state), exists s' ev',
      handleFallback E r ev s = (s', (ev', Returned)) /\ Err ev' = Err ev.
    Proof.
      intros r ev s. unfold handleFallback. destruct (guarded_total r ev s) as (s' & ev' & e & -> & A & B).
      destruct e; [| |contradiction A; reflexivity]; eexists; eexists; split; [reflexivity|exact B|reflexivity|exact B].
    Qed.

    Lemma handleRoot_total : forall r ev (s : state), exists s' ev',
      handleRoot E r ev s = (s', (ev', Returned)) /\ Err ev' = Err ev.
    Proof.
      intros r ev s. unfold handleRoot. destruct (r_mode r); [|apply handleFallback_total].
      destruct (guarded_total r ev s) as (s' & ev' & e & -> & A & B).
      destruct e; [eexists; eexists; split; [reflexivity|exact B]| |contradiction A; reflexivity].
      unfold nomalModeOnPanic.
      match goal with |- context [newRootHandler E ?st ?md ?s] => destruct (newRootHandler_total st md s) as (s2 & r2 & ->) end.
      destruct (handleFallback_total r2 ev' s2) as (s3 & ev3 & -> & C). eexists; eexists; split; [reflexivity|congruence].
    Qed.

    Lemma handlerHandle_total : forall h ev stack (s : state), exists s' ev',
      handlerHandle E h ev stack s = (s', (ev', Returned)) /\ Err ev' = Err ev.
    Proof.
      intros h ev stack s. destruct h as [r|st]; cbn [handlerHandle]; [apply handleRoot_total|].
      unfold redirectorHandle. destruct (byPlace _ _ _); [apply handleRoot_total|].
      match goal with |- context [newRootHandler E ?st ?md ?s] => destruct (newRootHandler_total st md s) as (s2 & r2 & ->) end.
      apply handleRoot_total.
    Qed.

    Lemma getHandler_total : forall event agg ctx props stack (s : state), exists s' h,
      getHandler E event agg ctx props stack s = (s', Some h).
    Proof.
      intros event agg ctx props stack s. unfold getHandler. destruct (byEvent _ _); [eexists; eexists; reflexivity|].
      unfold newHandler.
      match goal with |- context [newRootHandler E ?st ?md ?s] => destruct (newRootHandler_total st md s) as (s2 & r2 & ->) end.
      eexists; eexists; reflexivity.
    Qed.

    Lemma log_nil : forall level event agg ctx props now stack (s : state), exists s',
      log E level event agg ctx None props now stack s = Ret None s'.
    Proof.
      intros level event agg ctx props now stack s. unfold log.
      match goal with |- context [getHandler E ?a ?b ?c ?d ?e ?f] => destruct (getHandler_total a b c d e f) as (s1 & h & ->) end.
      match goal with |- context [handlerHandle E ?a ?b ?c ?d] => destruct (handlerHandle_total a b c d) as (s2 & ev & -> & N) end.
      rewrite N. eexists. reflexivity.
    Qed.

    Lemma log_err : forall level event agg ctx text props now stack (s : state) fmt,
      (forall w, snd (sprint E event props w) = Returns fmt) ->
      exists s', log E level event agg ctx (Some (Some text)) props now stack s = Ret (Some (fmt ++ bs ": " ++ text)) s'.
    Proof.
      intros level event agg ctx text props now stack s fmt F. unfold log.
      match goal with |- context [getHandler E ?a ?b ?c ?d ?e ?f] => destruct (getHandler_total a b c d e f) as (s1 & h & ->) end.
      match goal with |- context [handlerHandle E ?a ?b ?c ?d] => destruct (handlerHandle_total a b c d) as (s2 & ev & -> & N) end.
      rewrite N. cbn [Err]. specialize (F (world s2)). destruct (sprint E event props (world s2)) as [w o]. cbn [snd] in F. subst o.
      eexists. reflexivity.
    Qed.
  End Total.
End Proofs.

(** * Programs *)
From Verif Require MsgfmtProofs StatsModel StatsSpec.

Lemma findAgg_flat : forall kvs, agg_ok kvs ->
  exists a, StatsModel.findAgg (StatsSpec.flat kvs) = Some a /\
    ((a = None /\ existsb (fun kv => bytes_eqb (fst kv) (bs "agg")) kvs = false)
     \/ (a <> None /\ existsb (fun kv => bytes_eqb (fst kv) (bs "agg")) kvs = true)).
Proof.
  induction kvs as [|[k v] kvs IH]; intro K.
  - exists None. split; [reflexivity|left; auto].
  - change (StatsSpec.flat ((k, v) :: kvs)) with (VStr k :: v :: StatsSpec.flat kvs).
    cbn [StatsModel.findAgg existsb fst]. destruct (bytes_eqb k (bs "agg")) eqn:B.
    + apply MsgfmtProofs.bytes_eqb_eq in B. subst k. destruct (K v (or_introl eq_refl)) as [t ->].
      exists (Some t). split; [reflexivity|right]. split; [discriminate|reflexivity].
    + apply IH. intros u I. apply K. right. exact I.
Qed.

Definition stats_of (asks : bool) : option dhandler := if asks then Some HDummy else None.

(** The default aggregator for a site. *)
Lemma aggregator_default : forall fmt st kvs w, Sample st = StatsSpec.flat kvs -> agg_ok kvs ->
  aggregatorHandlerOf (default fmt) st w
  = (w, Some (stats_of (negb (bytes_eqb (Agg st) []) || existsb (fun kv => bytes_eqb (fst kv) (bs "agg")) kvs))).
Proof.
  intros fmt st kvs w S' K. cbn [aggregatorHandlerOf default]. unfold StatsModel.HandlerOf.
  destruct (negb (bytes_eqb (Agg st) [])); [reflexivity|]. rewrite S'.
  destruct (findAgg_flat kvs K) as (a & -> & [[-> ->]|[N ->]]); [reflexivity|].
  destruct a as [a|]; [reflexivity|contradiction N; reflexivity].
Qed.

(** The state knows the first sites. *)
Definition knows (firsts : bytes -> option (site * bool)) (s : state records dhandler) : Prop :=
  forall n, byEvent s n = match firsts n with
                          | None => None
                          | Some f => Some (Root (mkRoot (fst f) (stats_of (snd f)) (HOut (fst f)) NormalMode))
                          end.

Section Default.
  Variable fmt : bytes -> list value -> bytes.
  Notation E := (default fmt).

  Lemma delivers_default : forall minCall f ev (w : records),
    delivers E minCall (stats_of (snd f)) (HOut (fst f)) ev w ev
      (w ++ (if snd f && (Level ev <? minCall) then [] else [(fst f, ev)])).
  Proof.
    intros minCall [st asks] ev w. cbn [fst snd]. destruct asks; cbn [stats_of].
    - destruct (Level ev <? minCall) eqn:L; cbn [andb].
      + apply deliver_stats; [apply Z.ltb_lt; exact L|]. rewrite app_nil_r. reflexivity.
      + apply deliver_both with (ev1 := ev) (w1 := w ++ [(st, ev)]); [apply Z.ltb_ge; exact L|reflexivity|reflexivity].
    - apply deliver_output. reflexivity.
  Qed.

  Lemma handlerHandle_default : forall f ev stack (s : state records dhandler),
    handlerHandle E (Root (mkRoot (fst f) (stats_of (snd f)) (HOut (fst f)) NormalMode)) ev stack s
    = (setWorld s (world s ++ (if snd f && (Level ev <? MinCallLevel (st_levels s)) then [] else [(fst f, ev)])), (ev, Returned)).
  Proof.
    intros f ev stack s. cbn [handlerHandle]. apply handleRoot_delivers. apply delivers_default.
  Qed.

  (** One call of log. *)
  Lemma log_default : forall firsts level event agg ctx err kvs now fr stack (s : state records dhandler) asks,
    knows firsts s -> agg_ok kvs ->
    asks = negb (bytes_eqb agg []) || existsb (fun kv => bytes_eqb (fst kv) (bs "agg")) kvs ->
    let st := site_of_call ctx stack event agg (StatsSpec.flat kvs) in
    let ev := mkEvent level ctx (match err with None => None | Some t => Some (Some t) end) now (StatsSpec.flat kvs) in
    let f := match firsts event with Some f => f | None => (st, asks) end in
    exists s', log E level event agg ctx (match err with None => None | Some t => Some (Some t) end) (StatsSpec.flat kvs) now (fr :: stack) s
      = Ret (match err with None => None | Some t => Some (fmt event (StatsSpec.flat kvs) ++ bs ": " ++ t) end) s'
      /\ knows (fun n => if bytes_eqb n event then Some f else firsts n) s'
      /\ st_levels s' = st_levels s
      /\ world s' = world s ++ (if snd f && (level <? MinCallLevel (st_levels s)) then [] else [(fst f, ev)]).
  Proof.
    intros firsts level event agg ctx err kvs now fr stack s asks K A AS st ev f.
    assert (Same : forall f0, firsts event = Some f0 -> forall n, (if bytes_eqb n event then Some f0 else firsts n) = firsts n).
    { intros f0 F n. destruct (bytes_eqb n event) eqn:B; [|reflexivity]. apply MsgfmtProofs.bytes_eqb_eq in B. subst n. symmetry. exact F. }
    unfold log, getHandler. cbn [others default]. rewrite (K event). unfold f. destruct (firsts event) as [f0|] eqn:F.
    - rewrite handlerHandle_default.
      destruct err as [t|]; cbn [Err]; (eexists; split; [reflexivity|]); (split; [|split; reflexivity]);
        intro n; rewrite (Same f0 eq_refl n); apply K.
    - unfold newHandler.
      match goal with |- context [newRootHandler E ?x _ _] => replace x with st end.
      2:{ unfold st, site_of_call, call_place, Caller. destruct stack; reflexivity. }
      rewrite (newRootHandler_builds E st NormalMode s (stats_of asks) (HOut st) (world s)).
      2:{ exists (world s). split; [|reflexivity]. rewrite AS. apply aggregator_default; [reflexivity|exact A]. }
      pose proof (handlerHandle_default (st, asks)) as HD. cbn [fst snd] in HD. rewrite HD.
      destruct err as [t|]; cbn [Err]; (eexists; split; [reflexivity|]); (split; [|split; reflexivity]);
        intro n; cbn [byEvent setWorld storeEvent]; (destruct (bytes_eqb n event); [reflexivity|apply K]).
  Qed.

  Lemma knows_setLevel : forall firsts l (s : state records dhandler), knows firsts s ->
    knows firsts (mkState l (byEvent s) (byPlace s) (world s)).
  Proof. intros firsts l s K n. apply K. Qed.

  Lemma ops_written : forall ops firsts (s : state records dhandler), Forall op_ok ops -> knows firsts s ->
    exists s', execute E ops s = Some (s', returned fmt ops) /\
      world s' = world s ++ written (MinLevel (st_levels s)) (MinCallLevel (st_levels s)) firsts ops.
  Proof.
    induction ops as [|o ops IH]; intros firsts s O K.
    - exists s. split; [reflexivity|]. cbn [written]. rewrite app_nil_r. reflexivity.
    - inversion O as [|? ? OK O']; subst. destruct o as [m event kvs now stack|m event err kvs now stack|l].
      + cbn [execute returned written logged]. cbn [op_ok] in OK.
        destruct (gated m && (level_of m <? MinLevel (st_levels s)) || suppressed m) eqn:G.
        * replace (invoke E m event (StatsSpec.flat kvs) now stack s) with (@Ret (state records dhandler) unit tt s).
          { apply IH; assumption. }
          symmetry. apply orb_true_iff in G. destruct G as [G|G]; [|apply invoke_suppressed; exact G].
          apply andb_true_iff in G. destruct G as [G L]. apply invoke_below; [exact G|apply Z.ltb_lt; exact L].
        * destruct (invoke_passes E m event (StatsSpec.flat kvs) now stack s) as [fr ->].
          { apply orb_false_iff in G. destruct G as [G L]. split; [|exact L]. intro GM. rewrite GM in G. cbn [andb] in G.
            apply Z.ltb_ge. exact G. }
          destruct (log_default firsts (level_of m) event [] (context_of m) None kvs now fr stack s
                     (existsb (fun kv => bytes_eqb (fst kv) (bs "agg")) kvs) K OK eq_refl) as (s1 & L1 & K1 & V1 & W1).
          rewrite L1. cbn [ignore].
          destruct (IH _ s1 O' K1) as (s2 & X & Y). exists s2. split; [exact X|].
          rewrite Y, W1, V1. cbn [SiteEvent site_of_call Level].
          rewrite <- app_assoc. reflexivity.
      + cbn [execute returned written logged]. cbn [op_ok] in OK. destruct err as [t|].
        * destruct (invokeCall_fails E m event (Some t) (StatsSpec.flat kvs) now stack s) as [fr Q]. unfold error in *. rewrite Q.
          destruct (log_default firsts (failure_level_of m) event (bs "call") (call_context_of m) (Some t) kvs now fr stack s
                     true K OK eq_refl) as (s1 & L1 & K1 & V1 & W1).
          rewrite L1.
          destruct (IH _ s1 O' K1) as (s2 & X & Y). rewrite X. exists s2. split; [reflexivity|].
          rewrite Y, W1, V1. cbn [SiteEvent site_of_call Level].
          rewrite <- app_assoc. reflexivity.
        * destruct (call_level_of m <? MinLevel (st_levels s)) eqn:L.
          { rewrite invokeCall_below by (apply Z.ltb_lt; exact L).
            destruct (IH firsts s O' K) as (s2 & X & Y). rewrite X. exists s2. split; [reflexivity|exact Y]. }
          destruct (invokeCall_passes E m event (StatsSpec.flat kvs) now stack s) as [fr ->]; [apply Z.ltb_ge; exact L|].
          destruct (log_default firsts (call_level_of m) event (bs "call") (call_context_of m) None kvs now fr stack s
                     true K OK eq_refl) as (s1 & L1 & K1 & V1 & W1).
          rewrite L1. cbn [returnNil].
          destruct (IH _ s1 O' K1) as (s2 & X & Y). rewrite X. exists s2. split; [reflexivity|].
          rewrite Y, W1, V1. cbn [SiteEvent site_of_call Level].
          rewrite <- app_assoc. reflexivity.
      + cbn [execute returned written].
        exact (IH firsts (mkState (SetMinLevel l) (byEvent s) (byPlace s) (world s)) O' (knows_setLevel firsts _ s K)).
  Qed.
End Default.
