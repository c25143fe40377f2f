(** Property C130: how often an event is handed to the handlers. *)
From Verif Require Import Base MsgfmtModel CountlogModel OnceSpec.
Local Arguments Returns {A}.
Local Arguments Panics {A}.
Local Arguments Unfinished {A}.
Open Scope Z_scope.

Ltac split_handle X w ev e := match type of X with context [handle ?E ?a ?b ?c] => destruct (handle E a b c) as [w [ev e]] end; cbv beta iota in X; cbn [fst snd] in X.
Section Once.
  Context {W H : Type}.
  Variable E : environment W H.
  Notation E' := (traced E).
  Notation state := (state (W * list hcall) H).

  Lemma newRoot_traced : forall st m (s s' : state) r, newRootHandler E' st m s = (s', r) -> st_levels s' = st_levels s /\ snd (world s') = snd (world s).
  Proof.
    intros st m s s' r X. unfold newRootHandler in X. cbn [aggregatorHandlerOf writerHandlerOf traced] in X.
    match type of X with context [aggregatorHandlerOf E ?a ?b] => destruct (aggregatorHandlerOf E a b) as [w1 [c|]] end; cbv beta iota in X; [|injection X as <- <-; now split].
    cbn [fst snd] in X. match type of X with context [writerHandlerOf E ?a ?b] => destruct (writerHandlerOf E a b) as [w2 [o|]] end; cbv beta iota in X; injection X as <- <-; now split.
  Qed.
  Lemma guarded_traced : forall r ev (s s' : state) ev' e, guarded E' r ev s = (s', (ev', e)) ->
    exists calls, snd (world s') = snd (world s) ++ calls /\ round (MinCallLevel (st_levels s)) r ev calls e /\ st_levels s' = st_levels s.
  Proof.
    intros r ev s s' ev' e X. unfold guarded in X. cbn [handle traced] in X. destruct (r_stats r) as [h|] eqn:R.
    - destruct (MinCallLevel (st_levels s) <=? Level ev) eqn:L.
      + split_handle X w1 ev1 e1. destruct e1.
        * split_handle X w2 ev2 e2. injection X as <- <- <-. exists [(r_out r, ev, Returned); (h, ev1, e2)]. cbn [world setWorld snd st_levels].
          split; [now rewrite <- app_assoc|]. split; [|reflexivity]. apply round_both; [exact R|]. now apply Z.leb_le.
        * injection X as <- <- <-. eexists. split; [reflexivity|]. split; [|reflexivity]. apply (round_stopped _ _ _ h); [exact R|now apply Z.leb_le|discriminate].
        * injection X as <- <- <-. eexists. split; [reflexivity|]. split; [|reflexivity]. apply (round_stopped _ _ _ h); [exact R|now apply Z.leb_le|discriminate].
      + split_handle X w1 ev1 e1. injection X as <- <- <-. eexists. split; [reflexivity|]. split; [|reflexivity].
        apply round_quiet; [exact R|]. now apply Z.leb_gt.
    - split_handle X w1 ev1 e1. injection X as <- <- <-. eexists. split; [reflexivity|]. split; [|reflexivity]. now apply round_output.
  Qed.
  Lemma fallback_traced : forall r ev (s s' : state) ev' e, handleFallback E' r ev s = (s', (ev', e)) ->
    exists calls e0, snd (world s') = snd (world s) ++ calls /\ round (MinCallLevel (st_levels s)) r ev calls e0 /\ e <> Panicked /\ (e0 <> Panicked -> e = e0) /\ (e0 = Panicked -> e = Returned).
  Proof.
    intros r ev s s' ev' e X. unfold handleFallback in X. destruct (guarded E' r ev s) as [s1 [ev1 e1]] eqn:G. apply guarded_traced in G. destruct G as (calls & T & Rd & Lv).
    exists calls, e1. destruct e1; injection X as <- <- <-; (split; [|split; [exact Rd|split; [discriminate|split; congruence]]]); try exact T.
    unfold fallbackModeOnPanic. cbn [world setWorld loglogError printStack traced]. destruct (MinLevel _ <=? _); exact T.
  Qed.
End Once.

(** * C130: how often an event is handed to the handlers *)

(** One call of a handler of the cache that was made for a name or a place: one round over its handlers; only if that ended with a panic, and the handler is the first of
    its name, one more round over the handlers that are made for the place "unknown" *)
Theorem C130_rounds : forall W H (E : environment W H) r ev s s' ev' e, handleRoot (traced E) r ev s = (s', (ev', e)) ->
  exists calls e1, round (MinCallLevel (st_levels s)) r ev calls e1 /\
    ((snd (world s') = snd (world s) ++ calls /\ (e1 <> Panicked -> e = e1) /\ (e1 = Panicked -> r_mode r = FallbackMode /\ e = Returned \/ r_mode r = NormalMode /\ e = Panicked)) \/
     (e1 = Panicked /\ r_mode r = NormalMode /\ e <> Panicked /\
      exists r2 ev2 calls2 e2, r_site r2 = mkSite (Context (r_site r)) (Func (r_site r)) (bs "unknown") 0 (SiteEvent (r_site r)) (Agg (r_site r)) (Properties ev2) /\
        round (MinCallLevel (st_levels s)) r2 ev2 calls2 e2 /\ snd (world s') = snd (world s) ++ calls ++ calls2)).
Proof.
  intros W H E r ev s s' ev' e X. unfold handleRoot in X. destruct (r_mode r) eqn:M.
  - destruct (guarded (traced E) r ev s) as [s1 [ev1 e1]] eqn:G. apply guarded_traced in G. destruct G as (calls & T & Rd & Lv). exists calls, e1. split; [exact Rd|].
    destruct e1; [left; injection X as <- <- <-; repeat split; auto; discriminate| |left; injection X as <- <- <-; repeat split; auto; discriminate].
    unfold nomalModeOnPanic in X. destruct (newRootHandler (traced E) _ FallbackMode _) as [s2 [r2|]] eqn:N.
    + right. pose proof (newRoot_traced E _ _ _ _ _ N) as [Lv2 T2]. cbn [storeEvent st_levels world] in Lv2, T2.
      apply fallback_traced in X. destruct X as (calls2 & e2 & T3 & Rd2 & NP & _ & _). split; [reflexivity|]. split; [reflexivity|]. split; [exact NP|].
      exists r2, ev1, calls2, e2. split; [|split].
      * clear - N. unfold newRootHandler in N. cbn [aggregatorHandlerOf writerHandlerOf traced] in N.
        match type of N with context [aggregatorHandlerOf E ?a ?b] => destruct (aggregatorHandlerOf E a b) as [w1 [c|]] end; cbv beta iota in N; [|discriminate N].
        cbn [fst snd] in N. match type of N with context [writerHandlerOf E ?a ?b] => destruct (writerHandlerOf E a b) as [w2 [o|]] end; cbv beta iota in N; [|discriminate N].
        injection N as _ <-. reflexivity.
      * now rewrite Lv2, Lv in Rd2.
      * now rewrite T3, T2, T, app_assoc.
    + left. pose proof (newRoot_traced E _ _ _ _ _ N) as [Lv2 T2]. injection X as <- <- <-. split; [now rewrite T2|]. split; [congruence|]. intros _. right. now split.
  - apply fallback_traced in X. destruct X as (calls & e0 & T & Rd & NP & Eq & EqP). exists calls, e0. split; [exact Rd|]. left. split; [exact T|]. split; [exact Eq|]. intros P. left. split; [reflexivity|]. now apply EqP.
Qed.
Print Assumptions C130_rounds.

Lemma round_end : forall H lv (r : root H) ev calls e, round lv r ev calls e -> exists c, In c calls /\ snd c = e.
Proof. intros H lv r ev calls e R. destruct R as [ev e S|ev h e S L|ev h e S L N|ev ev' h e S L]; [eexists; split; [now left|reflexivity]..|]. exists (h, ev', e). split; [right; now left|reflexivity]. Qed.
Lemma root_handed : forall W H (E : environment W H) r ev s s' ev' e, handleRoot (traced E) r ev s = (s', (ev', e)) ->
  exists calls, snd (world s') = snd (world s) ++ calls /\ handed (MinCallLevel (st_levels s)) ev calls /\
    (Forall (fun c => snd c <> Panicked) calls -> exists r0 e0, round (MinCallLevel (st_levels s)) r0 ev calls e0).
Proof.
  intros W H E r ev s s' ev' e X. apply C130_rounds in X. destruct X as (calls & e1 & Rd & [(T & _)|(-> & M & NP & r2 & ev2 & calls2 & e2 & S2 & Rd2 & T)]).
  - exists calls. split; [exact T|]. split; [now apply (handed_once _ _ r _ e1)|]. intros _. eauto.
  - exists (calls ++ calls2). split; [exact T|]. split; [apply (handed_twice _ _ r r2 calls ev2 calls2 e2); auto; now rewrite S2|].
    intros F. exfalso. apply Forall_app in F. destruct F as [F _]. apply round_end in Rd. destruct Rd as (c & I & P). rewrite Forall_forall in F. exact (F c I P).
Qed.
(** A logging call makes at most two rounds over the handlers, and exactly one if no handler panics and there is one *)
Theorem C130_partial : forall W H (E : environment W H) level name agg ctx err ps now stack s, (forall s, st_levels (others E s) = st_levels s) ->
  let ev := mkEvent level ctx err now ps in
  let s' := endOf (log (traced E) level name agg ctx err ps now stack s) in
  exists calls, snd (world s') = snd (world s) ++ calls /\ handed (MinCallLevel (st_levels s)) ev calls /\
    (Forall (fun c => snd c <> Panicked) calls -> calls <> [] -> exists r e, round (MinCallLevel (st_levels s)) r ev calls e) /\
    (calls = [] -> exists s1, log (traced E) level name agg ctx err ps now stack s = Pan s1).
Proof.
  intros W H E level name agg ctx err ps now stack s O ev s'.
  assert (Others : forall x, st_levels (others (traced E) x) = st_levels x /\ snd (world (others (traced E) x)) = snd (world x)) by (intros x; split; [apply (O (plain x))|reflexivity]).
  assert (NewH : forall eventName agg ctx ps stack x x' h, newHandler (traced E) eventName agg ctx ps stack x = (x', h) -> st_levels x' = st_levels x /\ snd (world x') = snd (world x)).
  { clear. intros eventName agg ctx ps stack x x' h X. unfold newHandler in X. destruct (newRootHandler _ _ _ _) as [x1 [r|]] eqn:N; apply newRoot_traced in N; destruct N as [A B]; injection X as <- <-; now split. }
  assert (Done : forall (x : state (W * list hcall) H) ev1, let res := match Err ev1 with
        | None => Ret None x
        | Some text => let '(w, errMsg) := sprint (traced E) name ps (world x) in let s := setWorld x w in
            match errMsg, text with Returns errMsg, Some text => Ret (Some (errMsg ++ bs ": " ++ text)) s | Returns _, None => Pan s | Panics, _ => Pan s | Unfinished, _ => Never s end
        end in snd (world (endOf res)) = snd (world x)).
  { clear. intros x ev1. cbv zeta. destruct (Err ev1) as [text|]; [|reflexivity]. cbn [sprint traced]. match goal with |- context [sprint E ?a ?b ?c] => destruct (sprint E a b c) as [w [o| |]] end; try reflexivity. destruct text; reflexivity. }
  unfold log in s'. unfold log. destruct (getHandler (traced E) name agg ctx ps _ s) as [s1 h] eqn:G.
  assert (S1 : st_levels s1 = st_levels s /\ snd (world s1) = snd (world s)).
  { unfold getHandler in G. destruct (Others s) as [A B]. destruct (byEvent _ name); [injection G as <- _; now split|]. apply NewH in G. destruct G as [C D]. split; congruence. }
  destruct S1 as [Lv T1]. destruct h as [h|].
  2:{ exists []. subst s'. cbn [endOf]. rewrite app_nil_r. split; [exact T1|]. split; [constructor|]. split; [congruence|]. intros _. eauto. }
  destruct (handlerHandle (traced E) h _ _ s1) as [s2 [ev2 e2]] eqn:Hd.
  assert (K : exists calls, snd (world s2) = snd (world s1) ++ calls /\ handed (MinCallLevel (st_levels s)) ev calls /\
    (Forall (fun c => snd c <> Panicked) calls -> calls <> [] -> exists r e, round (MinCallLevel (st_levels s)) r ev calls e) /\ (calls = [] -> e2 = Panicked)).
  { rewrite <- Lv. destruct h as [r|st]; cbn [handlerHandle] in Hd.
    - apply root_handed in Hd. destruct Hd as (calls & T & Hh & R). exists calls. split; [exact T|]. split; [exact Hh|]. split; [auto|].
      intros ->. destruct (R (Forall_nil _)) as (r0 & e0 & X). inversion X.
    - unfold redirectorHandle in Hd. destruct (Others s1) as [A B]. rewrite <- A, <- B. destruct (byPlace _ _ _) as [r|].
      + apply root_handed in Hd. destruct Hd as (calls & T & Hh & R). exists calls. split; [exact T|]. split; [exact Hh|]. split; [auto|].
        intros ->. destruct (R (Forall_nil _)) as (r0 & e0 & X). inversion X.
      + destruct (newRootHandler _ _ _ _) as [s3 [r|]] eqn:N; apply newRoot_traced in N; destruct N as [C D].
        * apply root_handed in Hd. cbn [storePlace world st_levels] in Hd. rewrite C, D in Hd. destruct Hd as (calls & T & Hh & R). exists calls. split; [exact T|]. split; [exact Hh|]. split; [auto|].
          intros ->. destruct (R (Forall_nil _)) as (r0 & e0 & X). inversion X.
        * injection Hd as <- <- <-. exists []. rewrite app_nil_r. split; [exact D|]. split; [constructor|]. split; [congruence|reflexivity]. }
  destruct K as (calls & T & Hh & R & N). exists calls. split; [|split; [exact Hh|split; [exact R|]]].
  - rewrite <- T1, <- T. subst s'. destruct e2; [apply Done|reflexivity|reflexivity].
  - intros X. rewrite (N X). eauto.
Qed.
Print Assumptions C130_partial.

(** Statistics that panic (as those of stats do for an event with fewer properties than the first one of its name had, C53) after the event was written *)
Definition o_env : environment unit Z := {|
  aggregatorHandlerOf _ w := (w, Some (Some 1)); writerHandlerOf _ w := (w, Some 0);
  handle h ev w := (w, (ev, if h =? 1 then Panicked else Returned));
  loglogError w := w; printStack w := w; sprint _ _ w := (w, Returns []); others s := s
|}.
Definition o_start : state (unit * list (hcall (H := Z))) Z := mkState initialLevels (fun _ => None) (fun _ _ => None) (tt, []).
Example C130_example : (forall s, st_levels (others o_env s) = st_levels s) /\
  let ev := mkEvent LevelWarn None None 7 [] in
  log (traced o_env) LevelWarn (bs "event!a") (bs "counter") None None [] 7 [] o_start =
    Ret None (endOf (log (traced o_env) LevelWarn (bs "event!a") (bs "counter") None None [] 7 [] o_start)) /\
  snd (world (endOf (log (traced o_env) LevelWarn (bs "event!a") (bs "counter") None None [] 7 [] o_start))) =
    [(0, ev, Returned); (1, ev, Panicked); (0, ev, Returned); (1, ev, Panicked)].
Proof. split; [reflexivity|]. split; vm_compute; reflexivity. Qed.
(** The event is then written twice *)
Definition C130_full : Prop := forall W H (E : environment W H) level name agg ctx err ps now stack s, (forall s, st_levels (others E s) = st_levels s) ->
  forall x s', log (traced E) level name agg ctx err ps now stack s = Ret x s' ->
  exists r e calls, round (MinCallLevel (st_levels s)) r (mkEvent level ctx err now ps) calls e /\ snd (world s') = snd (world s) ++ calls.
Theorem C130_full_refuted : ~ C130_full.
Proof.
  intros F. destruct C130_example as (O & E & T).
  destruct (F _ _ _ _ _ _ _ _ _ _ _ _ O _ _ E) as (r & e & calls & Rd & X). rewrite T in X. cbn [o_start world snd app] in X. subst calls.
  inversion Rd.
Qed.
Print Assumptions C130_full_refuted.
(** Without a panic: one call of each *)
Example C130_quiet_example : let E := {|
    aggregatorHandlerOf _ w := (w, Some (Some 1)); writerHandlerOf _ w := (w, Some 0); handle h ev w := (w, (ev, Returned));
    loglogError w := w; printStack w := w; sprint _ _ w := (w, Returns []); others s := s |} : environment unit Z in
  snd (world (endOf (log (traced E) LevelWarn (bs "event!a") (bs "counter") None None [] 7 [] o_start))) = [(0, mkEvent LevelWarn None None 7 [], Returned); (1, mkEvent LevelWarn None None 7 [], Returned)] /\
  snd (world (endOf (log (traced E) LevelTrace (bs "event!a") (bs "counter") None None [] 7 [] o_start))) = [(1, mkEvent LevelTrace None None 7 [], Returned)].
Proof. split; vm_compute; reflexivity. Qed.
