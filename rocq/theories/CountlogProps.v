(** Properties C30, C31, C32, C55, C56: the logging functions. *)
From Verif Require Import Base MsgfmtModel CountlogModel CountlogSpec CountlogProofs.
From Verif Require StatsModel StatsSpec MsgfmtProofs MsgfmtSpec MsgfmtProps.
Local Arguments Returns {A}.
Local Arguments Panics {A}.
Local Arguments Unfinished {A}.

Section Props.
  Context {W H : Type}.
  (** Every aggregator, every writer, every handler, every behaviour of other goroutines. *)
  Variable E : environment W H.
  Notation state := (state W H).

  (** * C30 *)
  (** Below the level nothing happens: the state after the call is the state before. *)
  Theorem C30_below : forall m event props now stack (s : state),
    gated m = true -> level_of m < MinLevel (st_levels s) -> invoke E m event props now stack s = Ret tt s.
  Proof. exact (invoke_below E). Qed.
  Theorem C30_below_call : forall m event props now stack (s : state),
    call_level_of m < MinLevel (st_levels s) -> invokeCall E m event None props now stack s = Ret None s.
  Proof. exact (invokeCall_below E). Qed.

  (** At or above it, and for Warn, Error and Fatal at any level, the event goes once to the handlers of its name ... *)
  Theorem C30_reaches : forall m event props now stack (s : state) r ev' w', let s0 := others E s in
    passes (MinLevel (st_levels s)) m -> byEvent s0 event = Some (Root r) ->
    delivers E (MinCallLevel (st_levels s0)) (r_stats r) (r_out r) (mkEvent (level_of m) (context_of m) None now props) (world s0) ev' w' ->
    Err ev' = None -> invoke E m event props now stack s = Ret tt (setWorld s0 w').
  Proof.
    intros m event props now stack s r ev' w' s0 P C D N. destruct (invoke_passes E m event props now stack s P) as [f ->].
    unfold s0 in *. rewrite (log_cached E _ _ _ _ _ _ _ _ r ev' w' C D N). reflexivity.
  Qed.
  Theorem C30_reaches_call : forall m event props now stack (s : state) r ev' w', let s0 := others E s in
    MinLevel (st_levels s) <= call_level_of m -> byEvent s0 event = Some (Root r) ->
    delivers E (MinCallLevel (st_levels s0)) (r_stats r) (r_out r) (mkEvent (call_level_of m) (call_context_of m) None now props) (world s0) ev' w' ->
    Err ev' = None -> invokeCall E m event None props now stack s = Ret None (setWorld s0 w').
  Proof.
    intros m event props now stack s r ev' w' s0 P C D N. destruct (invokeCall_passes E m event props now stack s P) as [f ->].
    unfold s0 in *. rewrite (log_cached E _ _ _ _ _ _ _ _ r ev' w' C D N). reflexivity.
  Qed.
  (** ... or, for a new name, to handlers made for this call, which are kept. *)
  Theorem C30_reaches_new : forall m event props now stack (s : state) stats out w1 ev' w', let s0 := others E s in
    let st := site_of_call (context_of m) stack event [] props in
    passes (MinLevel (st_levels s)) m -> byEvent s0 event = None -> builds E st (world s0) stats out w1 ->
    delivers E (MinCallLevel (st_levels s0)) stats out (mkEvent (level_of m) (context_of m) None now props) w1 ev' w' -> Err ev' = None ->
    invoke E m event props now stack s = Ret tt (setWorld (storeEvent s0 event (Root (mkRoot st stats out NormalMode))) w').
  Proof.
    intros m event props now stack s stats out w1 ev' w' s0 st P C B D N. destruct (invoke_passes E m event props now stack s P) as [f ->].
    unfold s0, st in *. rewrite (log_new E _ _ _ _ _ _ _ _ _ _ _ _ _ _ C B D N). reflexivity.
  Qed.
  Theorem C30_reaches_call_new : forall m event props now stack (s : state) stats out w1 ev' w', let s0 := others E s in
    let st := site_of_call (call_context_of m) stack event (bs "call") props in
    MinLevel (st_levels s) <= call_level_of m -> byEvent s0 event = None -> builds E st (world s0) stats out w1 ->
    delivers E (MinCallLevel (st_levels s0)) stats out (mkEvent (call_level_of m) (call_context_of m) None now props) w1 ev' w' -> Err ev' = None ->
    invokeCall E m event None props now stack s = Ret None (setWorld (storeEvent s0 event (Root (mkRoot st stats out NormalMode))) w').
  Proof.
    intros m event props now stack s stats out w1 ev' w' s0 st P C B D N. destruct (invokeCall_passes E m event props now stack s P) as [f ->].
    unfold s0, st in *. rewrite (log_new E _ _ _ _ _ _ _ _ _ _ _ _ _ _ C B D N). reflexivity.
  Qed.
  (** The level setting is the one given to SetMinLevel, and 5 more for what goes through statistics; TraceTimer and so on
      are 0 exactly below it. *)
  Theorem C30_levels : forall l, MinLevel (SetMinLevel l) = l /\ MinCallLevel (SetMinLevel l) = l + 5
    /\ forall level, ShouldLog (SetMinLevel l) level = true <-> l <= level.
  Proof. intros l. repeat split; unfold ShouldLog; cbn [MinLevel SetMinLevel]; apply Z.leb_le. Qed.
  Theorem C30_timers : forall now (s : state), 0 < now ->
    (TraceTimer now s = 0 <-> 10 < MinLevel (st_levels s)) /\ (DebugTimer now s = 0 <-> 20 < MinLevel (st_levels s)) /\
    (InfoTimer now s = 0 <-> 30 < MinLevel (st_levels s)).
  Proof.
    intros now s P. unfold TraceTimer, DebugTimer, InfoTimer, LevelTrace, LevelDebug, LevelInfo.
    destruct (Z.ltb_spec 10 (MinLevel (st_levels s))); destruct (Z.ltb_spec 20 (MinLevel (st_levels s)));
      destruct (Z.ltb_spec 30 (MinLevel (st_levels s))); repeat split; intro; lia.
  Qed.

  (** * C31 *)
  (** A failure is logged at whatever level setting, and the call returns its text, as long as the sinks make handlers, the handlers
      end, and the text can be formatted. *)
  Theorem C31_failure_partial : forall m event text props now stack (s : state) fmt,
    sinks_never_panic E -> handlers_end E -> (forall w, snd (sprint E event props w) = Returns fmt) ->
    exists s', invokeCall E m event (Some (Some text)) props now stack s = Ret (Some (fmt ++ bs ": " ++ text)) s'.
  Proof.
    intros m event text props now stack s fmt S' HE F. destruct (invokeCall_fails E m event (Some text) props now stack s) as [f Q].
    unfold error in *. rewrite Q. apply log_err; assumption.
  Qed.
  Theorem C31_success_partial : forall m event props now stack (s : state),
    sinks_never_panic E -> handlers_end E -> exists s', invokeCall E m event None props now stack s = Ret None s'.
  Proof.
    intros m event props now stack s S' HE. destruct (Z_lt_le_dec (call_level_of m) (MinLevel (st_levels s))) as [L|L].
    - exists s. apply C30_below_call. exact L.
    - destruct (invokeCall_passes E m event props now stack s L) as [f ->].
      destruct (log_nil E S' HE (call_level_of m) event (bs "call") (call_context_of m) props now (f :: stack) s) as [s' ->].
      exists s'. reflexivity.
  Qed.
  (** Without any condition: no success is told as a failure. *)
  Theorem C31_no_false_failure : forall m event props now stack (s : state) r s',
    invokeCall E m event None props now stack s = Ret r s' -> r = None.
  Proof.
    intros m event props now stack s r s' R. destruct (Z_lt_le_dec (call_level_of m) (MinLevel (st_levels s))) as [L|L].
    - rewrite (C30_below_call m event props now stack s L) in R. inversion R. reflexivity.
    - destruct (invokeCall_passes E m event props now stack s L) as [f Q]. rewrite Q in R.
      destruct (log E _ _ _ _ _ _ _ _ _); cbn [returnNil] in R; inversion R. reflexivity.
  Qed.

  (** * C32 *)
  (** Handlers may panic whenever they like: every call returns, if the sinks make handlers. *)
  Theorem C32_returns_partial : forall m event props now stack (s : state),
    sinks_never_panic E -> handlers_end E -> exists s', invoke E m event props now stack s = Ret tt s'.
  Proof.
    intros m event props now stack s S' HE.
    destruct (gated m && (level_of m <? MinLevel (st_levels s)) || suppressed m) eqn:G.
    - exists s. apply orb_true_iff in G. destruct G as [G|G]; [|apply invoke_suppressed; exact G].
      apply andb_true_iff in G. destruct G as [G L]. apply C30_below; [exact G|apply Z.ltb_lt; exact L].
    - destruct (invoke_passes E m event props now stack s) as [f ->].
      { apply orb_false_iff in G. destruct G as [G L]. split; [|exact L]. intro GM. rewrite GM in G. apply Z.ltb_ge. exact G. }
      destruct (log_nil E S' HE (level_of m) event [] (context_of m) props now (f :: stack) s) as [s' ->].
      exists s'. reflexivity.
  Qed.
  Theorem C32_call_returns_partial : forall m event err props now stack (s : state),
    sinks_never_panic E -> handlers_end E -> err <> Some None -> (forall w, exists fmt, snd (sprint E event props w) = Returns fmt) ->
    exists r s', invokeCall E m event err props now stack s = Ret r s'.
  Proof.
    intros m event err props now stack s S' HE N F. destruct err as [[text|]|]; [|contradiction N; reflexivity|].
    - destruct (invokeCall_fails E m event (Some text) props now stack s) as [f Q]. unfold error in *. rewrite Q. unfold log.
      match goal with |- context [getHandler E ?a ?b ?c ?d ?e ?f] => destruct (getHandler_total E S' a b c d e f) as (s1 & h & ->) end.
      match goal with |- context [handlerHandle E ?a ?b ?c ?d] => destruct (handlerHandle_total E S' HE a b c d) as (s2 & ev & -> & EQ) end.
      rewrite EQ. cbn [Err]. destruct (F (world s2)) as [fmt F2]. destruct (sprint E event props (world s2)) as [w o]. cbn [snd] in F2. subst o.
      eexists. eexists. reflexivity.
    - destruct (C31_success_partial m event props now stack s S' HE) as [s' Q]. exists None, s'. exact Q.
  Qed.
  (** After a panic of the handlers of a name, the event goes to handlers made for it alone; should these panic too, that is told
      (with the stack, if the level is Debug or below).  From then on the name is redirected to handlers by place. *)
  Theorem C32_retried : forall m event props now stack (s : state) r ev1 w1 stats out w2 ev2 w3, let s0 := others E s in
    passes (MinLevel (st_levels s)) m -> byEvent s0 event = Some (Root r) -> r_mode r = NormalMode ->
    breaks E (MinCallLevel (st_levels s0)) (r_stats r) (r_out r) (mkEvent (level_of m) (context_of m) None now props) (world s0) ev1 w1 ->
    builds E (unknown_site (r_site r) (Properties ev1)) w1 stats out w2 ->
    delivers E (MinCallLevel (st_levels s0)) stats out ev1 w2 ev2 w3 -> Err ev2 = None ->
    invoke E m event props now stack s = Ret tt (setWorld (storeEvent s0 (SiteEvent (r_site r)) (Redirector (r_site r))) w3).
  Proof.
    intros m event props now stack s r ev1 w1 stats out w2 ev2 w3 s0 P C M B U D N.
    destruct (invoke_passes E m event props now stack s P) as [f ->].
    unfold log, getHandler. fold s0. rewrite C. cbn [handlerHandle].
    rewrite (handleRoot_retry E _ _ _ _ _ _ _ _ _ _ M B U D), N. reflexivity.
  Qed.
  Theorem C32_told : forall m event props now stack (s : state) r ev1 w1 stats out w2 ev2 w3, let s0 := others E s in
    passes (MinLevel (st_levels s)) m -> byEvent s0 event = Some (Root r) -> r_mode r = NormalMode ->
    breaks E (MinCallLevel (st_levels s0)) (r_stats r) (r_out r) (mkEvent (level_of m) (context_of m) None now props) (world s0) ev1 w1 ->
    builds E (unknown_site (r_site r) (Properties ev1)) w1 stats out w2 ->
    breaks E (MinCallLevel (st_levels s0)) stats out ev1 w2 ev2 w3 -> Err ev2 = None ->
    invoke E m event props now stack s = Ret tt (setWorld (storeEvent s0 (SiteEvent (r_site r)) (Redirector (r_site r)))
      (if MinLevel (st_levels s0) <=? 20 then printStack E (loglogError E w3) else loglogError E w3)).
  Proof.
    intros m event props now stack s r ev1 w1 stats out w2 ev2 w3 s0 P C M B U D N.
    destruct (invoke_passes E m event props now stack s P) as [f ->].
    unfold log, getHandler. fold s0. rewrite C. cbn [handlerHandle].
    rewrite (handleRoot_twice E _ _ _ _ _ _ _ _ _ _ M B U D), N. reflexivity.
  Qed.

  (** * C55 *)
  (** After a panic, the handlers are those of the place of the call. *)
  Theorem C55_redirected : forall m event props now stack (s : state) st r ev' w',
    let s1 := others E (others E s) in let p := call_place stack in
    passes (MinLevel (st_levels s)) m -> byEvent (others E s) event = Some (Redirector st) -> byPlace s1 (f_file p) (f_line p) = Some r ->
    delivers E (MinCallLevel (st_levels s1)) (r_stats r) (r_out r) (mkEvent (level_of m) (context_of m) None now props) (world s1) ev' w' ->
    Err ev' = None -> invoke E m event props now stack s = Ret tt (setWorld s1 w').
  Proof.
    intros m event props now stack s st r ev' w' s1 p P C Q D N. destruct (invoke_passes E m event props now stack s P) as [f ->].
    unfold s1, p in *. rewrite (log_redirected E _ _ _ _ _ _ _ _ _ st r ev' w' C Q D N). reflexivity.
  Qed.
  Theorem C55_redirected_new : forall m event props now stack (s : state) st stats out w1 ev' w',
    let s1 := others E (others E s) in let p := call_place stack in
    let st' := mkSite (Context st) (Func st) (f_file p) (f_line p) (SiteEvent st) (Agg st) props in
    passes (MinLevel (st_levels s)) m -> byEvent (others E s) event = Some (Redirector st) -> byPlace s1 (f_file p) (f_line p) = None ->
    builds E st' (world s1) stats out w1 ->
    delivers E (MinCallLevel (st_levels s1)) stats out (mkEvent (level_of m) (context_of m) None now props) w1 ev' w' -> Err ev' = None ->
    invoke E m event props now stack s
    = Ret tt (setWorld (storePlace s1 (f_file p) (f_line p) (mkRoot st' stats out FallbackMode)) w').
  Proof.
    intros m event props now stack s st stats out w1 ev' w' s1 p st' P C Q B D N.
    destruct (invoke_passes E m event props now stack s P) as [f ->].
    unfold s1, p, st' in *. rewrite (log_redirected_new E _ _ _ _ _ _ _ _ _ st stats out w1 ev' w' C Q B D N). reflexivity.
  Qed.
  (** Those handlers are remembered for this place, and for no other. *)
  Theorem C55_remembered : forall m event props now stack (s : state) st stats out w1 ev' w',
    let s1 := others E (others E s) in let p := call_place stack in
    let st' := mkSite (Context st) (Func st) (f_file p) (f_line p) (SiteEvent st) (Agg st) props in
    passes (MinLevel (st_levels s)) m -> byEvent (others E s) event = Some (Redirector st) -> byPlace s1 (f_file p) (f_line p) = None ->
    builds E st' (world s1) stats out w1 ->
    delivers E (MinCallLevel (st_levels s1)) stats out (mkEvent (level_of m) (context_of m) None now props) w1 ev' w' -> Err ev' = None ->
    exists s', invoke E m event props now stack s = Ret tt s' /\ world s' = w' /\
      byPlace s' (f_file p) (f_line p) = Some (mkRoot st' stats out FallbackMode) /\
      (forall file line, file <> f_file p \/ line <> f_line p -> byPlace s' file line = byPlace s1 file line) /\
      byEvent s' = byEvent s1 /\ st_levels s' = st_levels s1.
  Proof.
    intros m event props now stack s st stats out w1 ev' w' s1 p st' P C Q B D N. eexists.
    split; [exact (C55_redirected_new m event props now stack s st stats out w1 ev' w' P C Q B D N)|].
    cbn [setWorld storePlace world byPlace byEvent st_levels]. split; [reflexivity|]. split.
    - fold p. unfold bytes_eqb. destruct (list_eq_dec Z.eq_dec (f_file p) (f_file p)) as [_|K]; [|now elim K]. rewrite Z.eqb_refl. reflexivity.
    - split; [|split; reflexivity]. intros file line K. fold p. unfold bytes_eqb. destruct (list_eq_dec Z.eq_dec file (f_file p)) as [->|_]; [|reflexivity].
      destruct K as [K|K]; [now elim K|]. apply Z.eqb_neq in K. rewrite K. reflexivity.
  Qed.

  (** * C56 *)
  (** SuppressLevelsBelow keeps Trace of that context quiet, completely ... *)
  Theorem C56_trace : forall ctx below event props now stack (s : state), 10 < below ->
    invoke E (CTrace ctx below) event props now stack s = Ret tt s.
  Proof.
    intros ctx below event props now stack s L. apply invoke_suppressed. cbn [suppressed]. apply Z.ltb_lt. exact L.
  Qed.
  (** ... and a level not above Trace changes nothing. *)
  Theorem C56_not_suppressed : forall ctx below event props now stack (s : state), below <= 10 ->
    invoke E (CTrace ctx below) event props now stack s = invoke E (CTrace ctx 0) event props now stack s.
  Proof.
    intros ctx below event props now stack s L. cbn [invoke]. unfold Ctx_Trace, LevelTrace.
    rewrite (proj2 (Z.ltb_ge 10 below) L). reflexivity.
  Qed.
End Props.

(** * Programs with the default configuration *)
(** Exactly what is output, and returned. *)
Theorem C30_program : forall fmt ops, Forall op_ok ops ->
  exists s', execute (default fmt) ops initial = Some (s', returned fmt ops) /\ world s' = written 10 15 (fun _ => None) ops.
Proof.
  intros fmt ops O. destruct (ops_written fmt ops (fun _ => None) initial O) as (s' & X & Y).
  - intro n. reflexivity.
  - exists s'. split; [exact X|exact Y].
Qed.

(** The events that should be output: a call without error at or above the level, a successful XxxCall from 5 above the level on. *)
Fixpoint should_write (min : Z) (ops : list op) : list event :=
  match ops with
  | [] => []
  | OSetMin l :: ops => should_write l ops
  | o :: ops =>
    match logged min o with
    | None => should_write min ops
    | Some (_, ev, _) =>
      (match o with OCall _ _ None _ _ _ => if Level ev <? min + 5 then [] else [ev] | _ => [ev] end) ++ should_write min ops
    end
  end.
Definition C30_full : Prop := forall fmt ops, Forall op_ok ops ->
  exists s' rs, execute (default fmt) ops initial = Some (s', rs) /\ map snd (world s') = should_write 10 ops.

Definition at_line (n : Z) : list frame := [mkFrame (bs "main") (bs "main.go") n].
(** The level rule of XxxCall takes over a Trace call of the same event; and the other way round. *)
Theorem C30_history_refuted : forall fmt,
  (exists s' rs, execute (default fmt) [OCall PTraceCall (bs "e") None [] 1 (at_line 3); OPlain PTrace (bs "e") [] 2 (at_line 4)] initial
     = Some (s', rs) /\ world s' = []) /\
  (exists s' rs, execute (default fmt) [OPlain PTrace (bs "e") [] 2 (at_line 4); OCall PTraceCall (bs "e") None [] 1 (at_line 3)] initial
     = Some (s', rs) /\ List.length (world s') = 2%nat).
Proof.
  intro fmt. split.
  - destruct (C30_program fmt [OCall PTraceCall (bs "e") None [] 1 (at_line 3); OPlain PTrace (bs "e") [] 2 (at_line 4)]) as (s' & X & Y).
    { repeat constructor; intros v [].  }
    exists s', (returned fmt [OCall PTraceCall (bs "e") None [] 1 (at_line 3); OPlain PTrace (bs "e") [] 2 (at_line 4)]).
    split; [exact X|]. rewrite Y. vm_compute. reflexivity.
  - destruct (C30_program fmt [OPlain PTrace (bs "e") [] 2 (at_line 4); OCall PTraceCall (bs "e") None [] 1 (at_line 3)]) as (s' & X & Y).
    { repeat constructor; intros v [].  }
    exists s', (returned fmt [OPlain PTrace (bs "e") [] 2 (at_line 4); OCall PTraceCall (bs "e") None [] 1 (at_line 3)]).
    split; [exact X|]. rewrite Y. vm_compute. reflexivity.
Qed.
Theorem C30_full_refuted : ~ C30_full.
Proof.
  intro F. set (fmt := fun (_ : bytes) (_ : list value) => @nil Z).
  destruct (F fmt [OCall PTraceCall (bs "e") None [] 1 (at_line 3); OPlain PTrace (bs "e") [] 2 (at_line 4)]) as (s' & rs & X & Y).
  { repeat constructor; intros v []. }
  destruct (C30_history_refuted fmt) as [(s2 & rs2 & X2 & Y2) _]. rewrite X in X2. injection X2 as -> ->.
  rewrite Y2 in Y. vm_compute in Y. discriminate Y.
Qed.

(** A failing XxxCall at the level setting of Warn is not output (Warn is). *)
Theorem C30_failure_hidden_refuted : forall fmt,
  exists s' rs, execute (default fmt) [OSetMin 40; OCall PInfoCall (bs "e") (Some (bs "no")) [] 1 (at_line 3); OPlain PWarn (bs "f") [] 2 (at_line 4)] initial
     = Some (s', rs) /\ map (fun r => SiteEvent (fst r)) (world s') = [bs "f"].
Proof.
  intro fmt.
  destruct (C30_program fmt [OSetMin 40; OCall PInfoCall (bs "e") (Some (bs "no")) [] 1 (at_line 3); OPlain PWarn (bs "f") [] 2 (at_line 4)]) as (s' & X & Y).
  { repeat constructor; intros v []. }
  exists s'. eexists. split; [exact X|]. rewrite Y. vm_compute. reflexivity.
Qed.

(** Names that are used with one kind of call only, and level settings that let failures through: all is as it should be. *)
Definition separate (kind : bytes -> bool) (o : op) : Prop :=
  match o with
  | OPlain _ e kvs _ _ => kind e = false /\ ~ In (bs "agg") (map fst kvs)
  | OCall _ e _ kvs _ _ => kind e = true /\ agg_ok kvs
  | OSetMin l => l <= 35
  end.
Lemma no_agg : forall kvs : list (bytes * value), ~ In (bs "agg") (map fst kvs) -> existsb (fun kv => bytes_eqb (fst kv) (bs "agg")) kvs = false.
Proof.
  intros kvs N. destruct (existsb _ kvs) eqn:X; [|reflexivity]. apply existsb_exists in X. destruct X as (kv & I & Q).
  apply MsgfmtProofs.bytes_eqb_eq in Q. contradiction N. rewrite <- Q. apply in_map. exact I.
Qed.
Lemma written_separate : forall kind ops min firsts, min <= 35 -> Forall (separate kind) ops ->
  (forall n f, firsts n = Some f -> snd f = kind n) ->
  map snd (written min (min + 5) firsts ops) = should_write min ops.
Proof.
  intros kind. induction ops as [|o ops IH]; intros min firsts M O K; [reflexivity|].
  inversion O as [|? ? OK O']; subst. destruct o as [m event kvs now stack|m event err kvs now stack|l].
  - cbn [written should_write]. destruct OK as [KE NA]. cbn [logged]. rewrite (no_agg kvs NA).
    destruct (_ || _); [apply IH; assumption|]. cbn [SiteEvent site_of_call].
    assert (B : forall f, (match firsts event with Some f => f | None => (site_of_call (context_of m) stack event [] (StatsSpec.flat kvs), false) end) = f -> snd f = false).
    { intros f <-. destruct (firsts event) as [f|] eqn:F; [rewrite (K _ _ F); exact KE|reflexivity]. }
    match goal with |- context [match firsts event with Some f => f | None => ?d end] => set (f := match firsts event with Some f => f | None => d end) in * end.
    rewrite (B f eq_refl). cbn [andb]. rewrite map_app. cbn [map snd]. f_equal. apply IH; [exact M|exact O'|].
    intros n g. destruct (bytes_eqb n event) eqn:Q; [|apply K]. intro G. injection G as <-.
    apply MsgfmtProofs.bytes_eqb_eq in Q. subst n. rewrite KE. apply B. reflexivity.
  - cbn [written should_write]. destruct OK as [KE NA].
    assert (B : forall d f, snd d = true -> (match firsts event with Some f => f | None => d end) = f -> snd f = true).
    { intros d f D <-. destruct (firsts event) as [f|] eqn:F; [rewrite (K _ _ F); exact KE|exact D]. }
    assert (G : forall d f, snd d = true -> (match firsts event with Some f => f | None => d end) = f ->
              forall n g, (if bytes_eqb n event then Some f else firsts n) = Some g -> snd g = kind n).
    { intros d f D FE n g. destruct (bytes_eqb n event) eqn:Q; [|apply K]. intro G. injection G as <-.
      apply MsgfmtProofs.bytes_eqb_eq in Q. subst n. rewrite KE. apply (B d); assumption. }
    cbn [logged]. destruct err as [t|].
    + cbn [SiteEvent site_of_call].
      match goal with |- context [match firsts event with Some f => f | None => ?d end] =>
        rewrite (B d _ eq_refl eq_refl); specialize (G d _ eq_refl eq_refl) end.
      cbn [andb Level]. replace (failure_level_of m <? min + 5) with false by (symmetry; apply Z.ltb_ge; destruct m; cbn [failure_level_of]; lia).
      rewrite map_app. cbn [map snd]. f_equal. apply IH; assumption.
    + destruct (call_level_of m <? min); [apply IH; assumption|]. cbn [SiteEvent site_of_call].
      match goal with |- context [match firsts event with Some f => f | None => ?d end] =>
        rewrite (B d _ eq_refl eq_refl); specialize (G d _ eq_refl eq_refl) end.
      cbn [andb Level]. rewrite map_app. destruct (call_level_of m <? min + 5); cbn [map snd]; f_equal; apply IH; assumption.
  - cbn [written should_write]. apply IH; assumption.
Qed.
Theorem C30_separate_partial : forall kind fmt ops, Forall (separate kind) ops ->
  exists s' rs, execute (default fmt) ops initial = Some (s', rs) /\ map snd (world s') = should_write 10 ops.
Proof.
  intros kind fmt ops O. destruct (C30_program fmt ops) as (s' & X & Y).
  - eapply Forall_impl; [|exact O]. intros o A. destruct o; cbn [separate op_ok] in *; [|tauto|exact I].
    intros v B. destruct A as [_ A]. contradiction A. apply in_map_iff. exists (bs "agg", v). auto.
  - exists s'. eexists. split; [exact X|]. rewrite Y. apply (written_separate kind); [lia|exact O|]. intros n f F. discriminate F.
Qed.

(** With a collector, XxxCall events are output from their own level on, and never counted: the aggregator knows no "call". *)
Theorem C30_collector_refuted : forall sample,
  snd (StatsModel.HandlerOf true (bs "call") sample) = StatsModel.AggNil \/ snd (StatsModel.HandlerOf true (bs "call") sample) = StatsModel.AggPanics.
Proof.
  intro sample. unfold StatsModel.HandlerOf, StatsModel.createHandler. cbn [negb].
  change (negb (bytes_eqb (bs "call") [])) with true. cbv beta iota. destruct (StatsModel.newDimensionExtractor sample); [left|right]; reflexivity.
Qed.

(** * C31 *)
(** Full claim, with the text formatted by msgfmt, which has nothing in its cache. *)
Definition C31_full : Prop := forall (W H : Type) (E : environment W H) encoderOf timeString timeFormat trimSpace argsText panicText fuel
  m event text props now stack s,
  sinks_never_panic E -> handlers_end E ->
  (forall ev ps w, sprint E ev ps w = (w, fst (Sprintf encoderOf timeString timeFormat trimSpace argsText panicText fuel [] ev ps))) ->
  exists out s', invokeCall E m event (Some (Some text)) props now stack s = Ret (Some (out ++ bs ": " ++ text)) s'.
Definition with_sprint (sp : bytes -> list value -> records -> records * outcome bytes) : environment records dhandler := {|
  aggregatorHandlerOf := fun st w => (w, Some None);
  writerHandlerOf := fun st w => (w, Some (HOut st));
  handle := fun h ev w => (match h with HDummy => w | HOut st => w ++ [(st, ev)] end, (ev, Returned));
  loglogError := fun w => w; printStack := fun w => w; sprint := sp; others := fun s => s
|}.
Lemma with_sprint_fine : forall sp, sinks_never_panic (with_sprint sp) /\ handlers_end (with_sprint sp).
Proof. intro sp. split; [split; intros st w; discriminate|]. intros h ev w. split; [discriminate|reflexivity]. Qed.
Lemma with_sprint_call : forall sp event text props now stack o, (forall w, sp event props w = (w, o)) ->
  exists s', invokeCall (with_sprint sp) PInfoCall event (Some (Some text)) props now stack initial =
    match o with Returns fmt => Ret (Some (fmt ++ bs ": " ++ text)) s' | Panics => Pan s' | Unfinished => Never s' end
    /\ List.length (world s') = 1%nat.
Proof.
  intros sp event text props now stack o S'.
  destruct (invokeCall_fails (with_sprint sp) PInfoCall event (Some text) props now stack initial) as [f Q]. unfold error in *. rewrite Q.
  unfold log, getHandler, newHandler. cbn [others with_sprint byEvent initial newRootHandler aggregatorHandlerOf writerHandlerOf world setWorld handlerHandle].
  unfold handleRoot, guarded. cbn [r_mode r_stats r_out handle with_sprint world setWorld storeEvent Err sprint].
  rewrite S'. destruct o; (eexists; split; [reflexivity|reflexivity]).
Qed.
(** The empty event: the call panics.  An event with an unclosed placeholder: it does not return. *)
Theorem C31_format_refuted : forall encoderOf timeString timeFormat trimSpace argsText panicText text props now stack,
  let E := fun fuel => with_sprint (fun ev ps w => (w, fst (Sprintf encoderOf timeString timeFormat trimSpace argsText panicText fuel [] ev ps))) in
  exists n, forall fuel, (n <= fuel)%nat ->
  (exists s', invokeCall (E fuel) PInfoCall [] (Some (Some text)) props now stack initial = Pan s' /\ List.length (world s') = 1%nat) /\
  (exists s', invokeCall (E fuel) PInfoCall (bs "{a") (Some (Some text)) props now stack initial = Never s' /\ List.length (world s') = 1%nat).
Proof.
  intros encoderOf timeString timeFormat trimSpace argsText panicText text props now stack E.
  destruct (MsgfmtProps.C20_unterminated_refuted encoderOf timeString timeFormat trimSpace argsText panicText
    (MsgfmtSpec.mkTemplate [] []) props [] [] (bs "a")) as [n U].
  - split; cbn; auto.
  - constructor.
  - constructor.
  - constructor.
  - apply MsgfmtProps.ex_runes. reflexivity.
  - reflexivity.
  - reflexivity.
  - destruct (MsgfmtProps.C20_plain_partial encoderOf timeString timeFormat trimSpace argsText panicText
      (MsgfmtSpec.mkTemplate [] []) props []) as [_ B].
    { split; cbn; auto. }
    { constructor. }
    { reflexivity. }
    destruct (proj2 B) as [n2 V]. { intros [N _]. apply N. reflexivity. }
    exists (n + n2)%nat. intros fuel L. specialize (U fuel ltac:(lia)). specialize (V fuel ltac:(lia)).
    change (MsgfmtSpec.template_text (MsgfmtSpec.mkTemplate [] []) ++ bs "{" ++ MsgfmtSpec.runes_text [] ++ MsgfmtSpec.runes_text (bs "a")) with (bs "{a") in U.
    change (MsgfmtSpec.template_text (MsgfmtSpec.mkTemplate [] [])) with (@nil Z) in V.
    split; unfold E.
    + exact (with_sprint_call _ [] text props now stack Panics (fun w => f_equal (pair w) V)).
    + exact (with_sprint_call _ (bs "{a") text props now stack Unfinished (fun w => f_equal (pair w) U)).
Qed.
Theorem C31_full_refuted : ~ C31_full.
Proof.
  intro F.
  pose (N := fun (_ : Z) => @None (value -> option bytes)). pose (T := fun (_ : Z) => @nil Z). pose (TF := fun (_ : bytes) (_ : Z) => @nil Z).
  pose (A := fun (_ : list value) => @nil Z). pose (I := fun b : bytes => b).
  destruct (C31_format_refuted N T TF I A [] [] [] 0 []) as [n R]. destruct (R n (le_n n)) as [(s' & Q & _) _].
  destruct (F _ _ (with_sprint (fun ev ps w => (w, fst (Sprintf N T TF I A [] n [] ev ps)))) N T TF I A [] n PInfoCall [] [] [] 0 [] initial
    (proj1 (with_sprint_fine _)) (proj2 (with_sprint_fine _)) (fun _ _ _ => eq_refl)) as (out & s2 & X).
  rewrite Q in X. discriminate X.
Qed.

(** * C32 *)
(** Full claim for the default configuration: every call returns. *)
Definition C32_full : Prop := forall fmt m event props now stack, exists s', invoke (default fmt) m event props now stack initial = Ret tt s'.
Definition not_string (v : value) : Prop := forall t, v <> VStr t.
Lemma findAgg_bad : forall kvs rest, ~ In (bs "agg") (map fst kvs) ->
  match rest with
  | v :: _ => not_string v \/ exists r, rest = VStr (bs "agg") :: r /\ match r with v :: _ => not_string v | [] => True end
  | [] => False
  end -> StatsModel.findAgg (StatsSpec.flat kvs ++ rest) = None.
Proof.
  induction kvs as [|[k v] kvs IH]; intros rest N B.
  - change (StatsSpec.flat [] ++ rest) with rest. destruct rest as [|v rest]; [contradiction|].
    destruct B as [B|(r & Q & B)].
    + destruct v; try reflexivity. contradiction (B s). reflexivity.
    + injection Q as -> ->. cbn [StatsModel.findAgg]. change (bytes_eqb (bs "agg") (bs "agg")) with true. cbv beta iota.
      destruct r as [|v r]; [reflexivity|]. destruct v; try reflexivity. contradiction (B s). reflexivity.
  - change (StatsSpec.flat ((k, v) :: kvs) ++ rest) with (VStr k :: v :: (StatsSpec.flat kvs ++ rest)).
    cbn [StatsModel.findAgg]. destruct (bytes_eqb k (bs "agg")) eqn:Q.
    + apply MsgfmtProofs.bytes_eqb_eq in Q. subst k. contradiction N. left. reflexivity.
    + apply IH; [|exact B]. intro I. apply N. right. exact I.
Qed.
(** A property whose key is not a string, or an "agg" that is not one or is missing: the first call of an event panics, and
    leaves nothing behind. *)
Theorem C32_key_refuted : forall fmt m event kvs rest now stack, passes 10 m -> ~ In (bs "agg") (map fst kvs) ->
  match rest with
  | v :: _ => not_string v \/ exists r, rest = VStr (bs "agg") :: r /\ match r with v :: _ => not_string v | [] => True end
  | [] => False
  end -> invoke (default fmt) m event (StatsSpec.flat kvs ++ rest) now stack initial = Pan initial.
Proof.
  intros fmt m event kvs rest now stack P N B. destruct (invoke_passes (default fmt) m event (StatsSpec.flat kvs ++ rest) now stack initial P) as [f ->].
  unfold log, getHandler, newHandler. cbn [others default byEvent initial]. unfold newRootHandler. cbn [aggregatorHandlerOf default Agg Sample].
  unfold StatsModel.HandlerOf. change (negb (bytes_eqb [] [])) with false. cbv beta iota. rewrite (findAgg_bad kvs rest N B). reflexivity.
Qed.
Theorem C32_full_refuted : ~ C32_full.
Proof.
  intro F. destruct (F (fun _ _ => []) PInfo (bs "e") [VAny 1 5; VAny 1 6] 0 []) as [s' Q].
  change [VAny 1 5; VAny 1 6] with (StatsSpec.flat [] ++ [VAny 1 5; VAny 1 6]) in Q.
  rewrite C32_key_refuted in Q; [discriminate Q| | |].
  - split; [cbn; lia|reflexivity].
  - intros [].
  - left. intros t X. discriminate X.
Qed.

(** * C55 *)
Definition op_stack (o : op) : list frame := match o with OPlain _ _ _ _ st | OCall _ _ _ _ _ st => st | OSetMin _ => [] end.
Definition op_event (o : op) : option bytes := match o with OPlain _ e _ _ _ | OCall _ e _ _ _ _ => Some e | OSetMin _ => None end.
Definition located (r : site * event) : bytes * Z := (File (fst r), Line (fst r)).
(** The places of the calls whose events are output. *)
Definition C55_full : Prop := forall fmt ops place, Forall op_ok ops ->
  (forall o, In o ops -> match o with OPlain _ _ _ now st | OCall _ _ _ _ now st => place now = call_place st | _ => True end) ->
  exists s' rs, execute (default fmt) ops initial = Some (s', rs) /\
    Forall (fun r => located r = (f_file (place (Timestamp (snd r))), f_line (place (Timestamp (snd r))))) (world s').
(** The second place an event is logged from is recorded as the first. *)
Theorem C55_second_place_refuted : forall fmt,
  exists s' rs, execute (default fmt) [OPlain PInfo (bs "e") [] 1 (at_line 3); OPlain PInfo (bs "e") [] 2 (at_line 4)] initial = Some (s', rs) /\
    map located (world s') = [(bs "main.go", 3); (bs "main.go", 3)].
Proof.
  intro fmt. destruct (C30_program fmt [OPlain PInfo (bs "e") [] 1 (at_line 3); OPlain PInfo (bs "e") [] 2 (at_line 4)]) as (s' & X & Y).
  { repeat constructor; intros v []. }
  exists s'. eexists. split; [exact X|]. rewrite Y. vm_compute. reflexivity.
Qed.
Theorem C55_full_refuted : ~ C55_full.
Proof.
  intro F. set (fmt := fun (_ : bytes) (_ : list value) => @nil Z).
  destruct (F fmt [OPlain PInfo (bs "e") [] 1 (at_line 3); OPlain PInfo (bs "e") [] 2 (at_line 4)] (fun now => mkFrame (bs "main") (bs "main.go") (now + 2)))
    as (s' & rs & X & Y).
  - repeat constructor; intros v [].
  - intros o [<-|[<-|[]]]; reflexivity.
  - destruct (C55_second_place_refuted fmt) as (s2 & rs2 & X2 & Y2). rewrite X in X2. injection X2 as -> ->.
    destruct (C30_program fmt [OPlain PInfo (bs "e") [] 1 (at_line 3); OPlain PInfo (bs "e") [] 2 (at_line 4)]) as (s3 & X3 & Y3).
    { repeat constructor; intros v []. }
    rewrite X in X3. injection X3 as -> ->. rewrite Y3 in Y. vm_compute in Y.
    inversion Y as [|? ? _ Y']; subst. inversion Y' as [|? ? Z' _]; subst. discriminate Z'.
Qed.
(** Events that are logged from one place each: the records have the place. *)
Lemma written_placed : forall place ops min minCall firsts,
  (forall o e, In o ops -> op_event o = Some e -> call_place (op_stack o) = place e) ->
  (forall n f, firsts n = Some f -> SiteEvent (fst f) = n /\ (File (fst f), Line (fst f)) = (f_file (place n), f_line (place n))) ->
  Forall (fun r => located r = (f_file (place (SiteEvent (fst r))), f_line (place (SiteEvent (fst r))))) (written min minCall firsts ops).
Proof.
  intros place. induction ops as [|o ops IH]; intros min minCall firsts P K; [constructor|].
  assert (P' : forall o e, In o ops -> op_event o = Some e -> call_place (op_stack o) = place e).
  { intros o' e I. apply P. right. exact I. }
  assert (Step : forall st ev asks e, SiteEvent st = e -> (File st, Line st) = (f_file (place e), f_line (place e)) ->
    Forall (fun r => located r = (f_file (place (SiteEvent (fst r))), f_line (place (SiteEvent (fst r)))))
     (let f := match firsts (SiteEvent st) with Some f => f | None => (st, asks) end in
        (if snd f && (Level ev <? minCall) then [] else [(fst f, ev)])
        ++ written min minCall (fun n => if bytes_eqb n (SiteEvent st) then Some f else firsts n) ops)).
  { intros st ev asks e SE L. cbv zeta. set (f := match firsts (SiteEvent st) with Some f => f | None => (st, asks) end).
    assert (Q : SiteEvent (fst f) = e /\ (File (fst f), Line (fst f)) = (f_file (place e), f_line (place e))).
    { unfold f. rewrite SE. destruct (firsts e) as [g|] eqn:G; [exact (K e g G)|]. split; [exact SE|exact L]. }
    destruct Q as [Q1 Q2]. apply Forall_app. split.
    - destruct (_ && _); [constructor|]. constructor; [|constructor]. unfold located. cbn [fst]. rewrite Q1. exact Q2.
    - apply IH; [exact P'|]. intros n g. destruct (bytes_eqb n (SiteEvent st)) eqn:B; [|apply K].
      apply MsgfmtProofs.bytes_eqb_eq in B. intro G. injection G as <-. subst n. rewrite SE. split; [exact Q1|exact Q2]. }
  destruct o as [m event kvs now stack|m event err kvs now stack|l].
  - cbn [written logged]. destruct (_ || _); [apply IH; assumption|].
    apply Step with (e := event); [reflexivity|]. cbn [File Line site_of_call].
    pose proof (P _ _ (or_introl eq_refl) eq_refl) as PL. cbn [op_stack] in PL. rewrite PL. reflexivity.
  - cbn [written logged]. pose proof (P _ _ (or_introl eq_refl) eq_refl) as PL. cbn [op_stack] in PL.
    destruct err as [t|]; [|destruct (_ <? min); [apply IH; assumption|]];
      (apply Step with (e := event); [reflexivity|]; cbn [File Line site_of_call]; rewrite PL; reflexivity).
  - cbn [written]. apply IH; assumption.
Qed.
Theorem C55_one_place_partial : forall fmt ops place, Forall op_ok ops ->
  (forall o e, In o ops -> op_event o = Some e -> call_place (op_stack o) = place e) ->
  exists s' rs, execute (default fmt) ops initial = Some (s', rs) /\
    Forall (fun r => located r = (f_file (place (SiteEvent (fst r))), f_line (place (SiteEvent (fst r))))) (world s').
Proof.
  intros fmt ops place O P. destruct (C30_program fmt ops O) as (s' & X & Y). exists s'. eexists. split; [exact X|]. rewrite Y.
  apply written_placed; [exact P|]. intros n f F. discriminate F.
Qed.
(** LogPanic is recorded as being called from LogPanic; it returns what it is given. *)
Theorem C55_logpanic_refuted : forall fmt v t now stack,
  exists s', LogPanic (default fmt) (Some v) [] t now stack initial = Ret (Some v) s' /\
    map (fun r => (Func (fst r), File (fst r), Properties (snd r))) (world s')
    = [(bs "LogPanic", bs "countlog.go", [VStr (bs "err"); v; VStr (bs "stacktrace"); VStr t])].
Proof. intros fmt v t now stack. eexists. split; [vm_compute; reflexivity|]. reflexivity. Qed.
Theorem C55_logpanic_nothing : forall W H (E : environment W H) props t now stack s, LogPanic E None props t now stack s = Ret None s.
Proof. reflexivity. Qed.

(** * C56 *)
Definition methods_of (ctx : nat) (below : Z) : list method := [CTrace ctx below; CDebug ctx; CInfo ctx; CWarn ctx; CError ctx; CFatal ctx].
Definition C56_full : Prop := forall fmt ctx below m event now stack, In m (methods_of ctx below) -> level_of m < below ->
  invoke (default fmt) m event [] now stack initial = Ret tt initial.
(** Only Trace is suppressed. *)
Theorem C56_others_refuted : forall W H (E : environment W H) ctx below event props now stack s,
  map (fun m => invoke E m event props now stack s) (tl (methods_of ctx below))
  = map (fun m => invoke E m event props now stack s) [CDebug ctx; CInfo ctx; CWarn ctx; CError ctx; CFatal ctx] /\
  exists s', invoke (default (fun _ _ => [])) (CDebug ctx) event [] now stack initial = Ret tt s' /\ List.length (world s') = 1%nat.
Proof.
  intros W H E ctx below event props now stack s. split; [reflexivity|].
  destruct (C30_program (fun _ _ => []) [OPlain (CDebug ctx) event [] now stack]) as (s' & X & Y).
  { repeat constructor; intros v []. }
  cbn [execute] in X. change (StatsSpec.flat []) with (@nil value) in X.
  destruct (invoke _ _ _ _ _ _ _) as [u s2| |]; try discriminate X. injection X as ->.
  exists s'. split; [destruct u; reflexivity|]. rewrite Y. reflexivity.
Qed.
Theorem C56_full_refuted : ~ C56_full.
Proof.
  intro F. destruct (C56_others_refuted _ _ (default (fun _ _ => [])) 0%nat 30 (bs "e") [] 0 [] initial) as [_ (s' & Q & L)].
  rewrite (F (fun _ _ => []) 0%nat 30 (CDebug 0) (bs "e") 0 []) in Q; [|right; left; reflexivity|cbn; lia].
  injection Q as <-. discriminate L.
Qed.

Print Assumptions C30_below.
Print Assumptions C30_below_call.
Print Assumptions C30_reaches.
Print Assumptions C30_reaches_call.
Print Assumptions C30_reaches_new.
Print Assumptions C30_reaches_call_new.
Print Assumptions C30_levels.
Print Assumptions C30_timers.
Print Assumptions C30_program.
Print Assumptions C30_history_refuted.
Print Assumptions C30_full_refuted.
Print Assumptions C30_failure_hidden_refuted.
Print Assumptions C30_separate_partial.
Print Assumptions C30_collector_refuted.
Print Assumptions C31_failure_partial.
Print Assumptions C31_success_partial.
Print Assumptions C31_no_false_failure.
Print Assumptions C31_format_refuted.
Print Assumptions C31_full_refuted.
Print Assumptions C32_returns_partial.
Print Assumptions C32_call_returns_partial.
Print Assumptions C32_retried.
Print Assumptions C32_told.
Print Assumptions C32_key_refuted.
Print Assumptions C32_full_refuted.
Print Assumptions C55_redirected.
Print Assumptions C55_redirected_new.
Print Assumptions C55_remembered.
Print Assumptions C55_second_place_refuted.
Print Assumptions C55_full_refuted.
Print Assumptions C55_one_place_partial.
Print Assumptions C55_logpanic_refuted.
Print Assumptions C55_logpanic_nothing.
Print Assumptions C56_trace.
Print Assumptions C56_not_suppressed.
Print Assumptions C56_others_refuted.
Print Assumptions C56_full_refuted.

(** * Examples *)
(** Handlers for sites in "bad.go" panic, those for an unknown place panic for errors (level 50); a told panic is
    a record with level -1. *)
Definition ex_told : site * event := (mkSite None [] [] 0 [] [] [], mkEvent (-1) None None 0 []).
Definition ex_env : environment records dhandler := {|
  aggregatorHandlerOf := fun st w => (w, if bytes_eqb (Agg st) [] then Some None else Some (Some HDummy));
  writerHandlerOf := fun st w => (w, Some (HOut st));
  handle := fun h ev w =>
    match h with
    | HDummy => (w, (ev, Returned))
    | HOut st =>
      if bytes_eqb (File st) (bs "bad.go") || (bytes_eqb (File st) (bs "unknown") && (Level ev =? 50)) then (w, (ev, Panicked))
      else (w ++ [(st, ev)], (ev, Returned))
    end;
  loglogError := fun w => w ++ [ex_told]; printStack := fun w => w;
  sprint := fun event props w => (w, Returns (event ++ bs "!")); others := fun s => s
|}.
Lemma ex_env_fine : sinks_never_panic ex_env /\ handlers_end ex_env.
Proof.
  split; [split; intros st w|].
  - cbn. destruct (bytes_eqb (Agg st) []); discriminate.
  - discriminate.
  - intros h ev w. cbn. destruct h; [split; [discriminate|reflexivity]|].
    destruct (_ || _); (split; [discriminate|reflexivity]).
Qed.
Definition ex_site (file : bytes) : site := mkSite None (bs "main") file 3 (bs "e") [] [].
Definition ex_state (l : Z) (file : bytes) (stats : option dhandler) : state records dhandler :=
  mkState (SetMinLevel l) (fun n => if bytes_eqb n (bs "e") then Some (Root (mkRoot (ex_site file) stats (HOut (ex_site file)) NormalMode)) else None)
    (fun _ _ => None) [].

Example C30_below_example :
  invoke ex_env PDebug (bs "new") [] 1 (at_line 3) (ex_state 30 (bs "main.go") None) = Ret tt (ex_state 30 (bs "main.go") None) /\
  invokeCall ex_env (CDebugCall 2) (bs "e") None [] 1 (at_line 3) (ex_state 30 (bs "main.go") None) = Ret None (ex_state 30 (bs "main.go") None).
Proof. split; [apply C30_below; [reflexivity|cbn; lia]|apply C30_below_call; cbn; lia]. Qed.
(** Warn at the level setting Fatal. *)
Example C30_reaches_example :
  invoke ex_env PWarn (bs "e") [] 1 (at_line 9) (ex_state 60 (bs "main.go") None)
  = Ret tt (setWorld (ex_state 60 (bs "main.go") None) [(ex_site (bs "main.go"), mkEvent 40 None None 1 [])]).
Proof.
  eapply C30_reaches; [split; [discriminate|reflexivity]|reflexivity|apply deliver_output; reflexivity|reflexivity].
Qed.
(** Debug calls at level setting Debug: only counted; at Trace: also output. *)
Example C30_reaches_call_example :
  invokeCall ex_env PDebugCall (bs "e") None [] 1 (at_line 9) (ex_state 20 (bs "main.go") (Some HDummy))
  = Ret None (setWorld (ex_state 20 (bs "main.go") (Some HDummy)) []) /\
  invokeCall ex_env PDebugCall (bs "e") None [] 1 (at_line 9) (ex_state 10 (bs "main.go") (Some HDummy))
  = Ret None (setWorld (ex_state 10 (bs "main.go") (Some HDummy)) [(ex_site (bs "main.go"), mkEvent 20 None None 1 [])]).
Proof.
  split.
  - eapply C30_reaches_call; [cbn; lia|reflexivity|apply deliver_stats; [cbn; lia|reflexivity]|reflexivity].
  - eapply C30_reaches_call; [cbn; lia|reflexivity|eapply deliver_both; [cbn; lia|reflexivity|reflexivity]|reflexivity].
Qed.
Example C30_reaches_new_example :
  let st := mkSite (Some 4%nat) (bs "main") (bs "main.go") 9 (bs "f") [] [VStr (bs "k"); VStr (bs "v")] in
  invoke ex_env (CInfo 4) (bs "f") [VStr (bs "k"); VStr (bs "v")] 1 (at_line 9) (ex_state 30 (bs "main.go") None)
  = Ret tt (setWorld (storeEvent (ex_state 30 (bs "main.go") None) (bs "f") (Root (mkRoot st None (HOut st) NormalMode)))
     [(st, mkEvent 30 (Some 4%nat) None 1 [VStr (bs "k"); VStr (bs "v")])]).
Proof.
  intro st. eapply (C30_reaches_new ex_env (CInfo 4) (bs "f"));
    [split; [intros _; cbn; lia|reflexivity]|reflexivity|eexists; split; reflexivity|apply deliver_output; reflexivity|reflexivity].
Qed.
Example C30_reaches_call_new_example :
  let st := mkSite None (bs "main") (bs "main.go") 9 (bs "f") (bs "call") [] in
  invokeCall ex_env PInfoCall (bs "f") None [] 1 (at_line 9) (ex_state 30 (bs "main.go") None)
  = Ret None (setWorld (storeEvent (ex_state 30 (bs "main.go") None) (bs "f") (Root (mkRoot st (Some HDummy) (HOut st) NormalMode))) []).
Proof.
  intro st. eapply (C30_reaches_call_new ex_env PInfoCall (bs "f"));
    [cbn; lia|reflexivity|eexists; split; reflexivity|apply deliver_stats; [cbn; lia|reflexivity]|reflexivity].
Qed.
Example C30_timers_example : TraceTimer 7 (ex_state 20 [] None) = 0 /\ DebugTimer 7 (ex_state 20 [] None) = 7.
Proof. split; reflexivity. Qed.
Definition ex_program : list op :=
  [OPlain PInfo (bs "a") [(bs "k", VAny 1 2)] 1 (at_line 1); OCall PInfoCall (bs "b") (Some (bs "no")) [] 2 (at_line 2);
   OCall PTraceCall (bs "b") None [] 3 (at_line 2); OSetMin 30; OPlain PDebug (bs "a") [] 4 (at_line 1); OPlain PFatal (bs "a") [] 5 (at_line 1);
   OCall (CLogAccess 0) (bs "c") None [] 6 (at_line 5)].
Example C30_program_example : Forall op_ok ex_program /\
  map (fun r => (SiteEvent (fst r), Level (snd r), Timestamp (snd r))) (written 10 15 (fun _ => None) ex_program) = [(bs "a", 30, 1); (bs "b", 40, 2); (bs "a", 60, 5)] /\
  returned (fun e _ => e) ex_program = [Some (bs "b: no"); None; None].
Proof.
  split; [|split; vm_compute; reflexivity].
  repeat constructor; try (intros v []; discriminate H); try (intros v [H|[]]; discriminate H).
Qed.
Example C30_separate_example : Forall (separate (fun n => negb (bytes_eqb n (bs "a")))) ex_program /\ List.length (should_write 10 ex_program) = 3%nat.
Proof.
  split; [|vm_compute; reflexivity].
  repeat constructor; try (intros v H; contradiction H); try (intros [H|H]; [discriminate H|contradiction H]); try (intros H; contradiction H).
  intro H. discriminate H.
Qed.
Example C31_example :
  (exists s', invokeCall ex_env PTraceCall (bs "e") (Some (Some (bs "lost"))) [] 1 (at_line 9) (ex_state 60 (bs "bad.go") None) = Ret (Some (bs "e!: lost")) s') /\
  (exists s', invokeCall ex_env PTraceCall (bs "e") None [] 1 (at_line 9) (ex_state 10 (bs "bad.go") None) = Ret None s').
Proof.
  split.
  - exact (C31_failure_partial ex_env PTraceCall (bs "e") (bs "lost") [] 1 (at_line 9) _ (bs "e!") (proj1 ex_env_fine) (proj2 ex_env_fine) (fun _ => eq_refl)).
  - exact (C31_success_partial ex_env PTraceCall (bs "e") [] 1 (at_line 9) _ (proj1 ex_env_fine) (proj2 ex_env_fine)).
Qed.
Example C32_example :
  exists s', invoke ex_env PError (bs "e") [] 1 (at_line 9) (ex_state 10 (bs "bad.go") None) = Ret tt s'.
Proof. exact (C32_returns_partial ex_env PError (bs "e") [] 1 (at_line 9) _ (proj1 ex_env_fine) (proj2 ex_env_fine)). Qed.
Example C32_call_example :
  exists r s', invokeCall ex_env PTraceCall (bs "e") (Some (Some (bs "lost"))) [] 1 (at_line 9) (ex_state 60 (bs "bad.go") None) = Ret r s'.
Proof.
  apply C32_call_returns_partial; [exact (proj1 ex_env_fine)|exact (proj2 ex_env_fine)|discriminate|].
  intro w. eexists. reflexivity.
Qed.
(** The handlers in bad.go panic; an info event is then output, an error is told. *)
Example C32_retried_example :
  invoke ex_env PInfo (bs "e") [] 1 (at_line 9) (ex_state 10 (bs "bad.go") None)
  = Ret tt (setWorld (storeEvent (ex_state 10 (bs "bad.go") None) (bs "e") (Redirector (ex_site (bs "bad.go"))))
     [(mkSite None (bs "main") (bs "unknown") 0 (bs "e") [] [], mkEvent 30 None None 1 [])]).
Proof.
  etransitivity; [eapply (C32_retried ex_env PInfo (bs "e") [] 1 (at_line 9) (ex_state 10 (bs "bad.go") None) (mkRoot (ex_site (bs "bad.go")) None (HOut (ex_site (bs "bad.go"))) NormalMode))|reflexivity];
    [split; [intros _; cbn; lia|reflexivity]|reflexivity|reflexivity|apply break_output; reflexivity|eexists; split; reflexivity
    |apply deliver_output; reflexivity|reflexivity].
Qed.
Example C32_told_example :
  invoke ex_env PError (bs "e") [] 1 (at_line 9) (ex_state 10 (bs "bad.go") None)
  = Ret tt (setWorld (storeEvent (ex_state 10 (bs "bad.go") None) (bs "e") (Redirector (ex_site (bs "bad.go")))) [ex_told]).
Proof.
  etransitivity; [eapply (C32_told ex_env PError (bs "e") [] 1 (at_line 9) (ex_state 10 (bs "bad.go") None) (mkRoot (ex_site (bs "bad.go")) None (HOut (ex_site (bs "bad.go"))) NormalMode)) with (w3 := [])|reflexivity];
    [split; [discriminate|reflexivity]|reflexivity|reflexivity|apply break_output; reflexivity|eexists; split; reflexivity
    |apply break_output; reflexivity|reflexivity].
Qed.
Definition ex_redirected : state records dhandler :=
  mkState (SetMinLevel 10) (fun n => if bytes_eqb n (bs "e") then Some (Redirector (ex_site (bs "bad.go"))) else None)
    (fun f l => if bytes_eqb f (bs "main.go") && (l =? 9) then Some (mkRoot (ex_site (bs "main.go")) None (HOut (ex_site (bs "main.go"))) FallbackMode) else None) [].
Example C55_redirected_example :
  invoke ex_env PInfo (bs "e") [] 1 (at_line 9) ex_redirected
  = Ret tt (setWorld ex_redirected [(ex_site (bs "main.go"), mkEvent 30 None None 1 [])]).
Proof.
  eapply (C55_redirected ex_env PInfo (bs "e"));
    [split; [intros _; cbn; lia|reflexivity]|reflexivity|reflexivity|apply deliver_output; reflexivity|reflexivity].
Qed.
Example C55_redirected_new_example :
  let st := mkSite None (bs "main") (bs "main.go") 10 (bs "e") [] [] in
  invoke ex_env PInfo (bs "e") [] 1 (at_line 10) ex_redirected
  = Ret tt (setWorld (storePlace ex_redirected (bs "main.go") 10 (mkRoot st None (HOut st) FallbackMode)) [(st, mkEvent 30 None None 1 [])]).
Proof.
  intro st. eapply (C55_redirected_new ex_env PInfo (bs "e") [] 1 (at_line 10) ex_redirected (ex_site (bs "bad.go")));
    [split; [intros _; cbn; lia|reflexivity]|reflexivity|reflexivity|eexists; split; reflexivity|apply deliver_output; reflexivity|reflexivity].
Qed.
Example C55_remembered_example :
  let st := mkSite None (bs "main") (bs "main.go") 10 (bs "e") [] [] in
  exists s', invoke ex_env PInfo (bs "e") [] 1 (at_line 10) ex_redirected = Ret tt s' /\ world s' = [(st, mkEvent 30 None None 1 [])] /\
    byPlace s' (bs "main.go") 10 = Some (mkRoot st None (HOut st) FallbackMode) /\ byPlace s' (bs "main.go") 11 = None.
Proof.
  intro st. destruct (C55_remembered ex_env PInfo (bs "e") [] 1 (at_line 10) ex_redirected (ex_site (bs "bad.go")) None (HOut st) [] (mkEvent 30 None None 1 []) [(st, mkEvent 30 None None 1 [])])
    as (s' & A & B & C & D & _); [split; [intros _; cbn; lia|reflexivity]|reflexivity|reflexivity|eexists; split; reflexivity|apply deliver_output; reflexivity|reflexivity|].
  exists s'. split; [exact A|]. split; [exact B|]. split; [exact C|]. rewrite D; [reflexivity|right; cbn; lia].
Qed.
Example C55_one_place_example :
  let place := fun e => mkFrame (bs "main") (bs "main.go") (if bytes_eqb e (bs "a") then 1 else if bytes_eqb e (bs "b") then 2 else 5) in
  forall o e, In o ex_program -> op_event o = Some e -> call_place (op_stack o) = place e.
Proof.
  intros place o e I Q. cbn [ex_program In] in I.
  repeat (destruct I as [<-|I]; [first [discriminate Q|injection Q as <-; reflexivity]|]). contradiction I.
Qed.
Example C56_example : invoke ex_env (CTrace 3 30) (bs "e") [] 1 (at_line 9) (ex_state 10 (bs "main.go") None) = Ret tt (ex_state 10 (bs "main.go") None).
Proof. apply C56_trace. lia. Qed.
