(** Proofs about programs that log with the default configuration. *)
From Verif Require Import Base ParseModel MsgfmtModel MsgfmtSpec MsgfmtProofs MsgfmtTopProofs CountlogModel CountlogSpec CountlogProofs
  OutputModel OutputSpec OutputProofs.
From Verif Require StatsModel StatsSpec.
Local Arguments Returns {A}. Local Arguments Panics {A}. Local Arguments Unfinished {A}.

Lemma shape_alike : forall a b, same_shape (flat a) (flat b) -> alike a b.
Proof.
  induction a as [|[k v] a IH]; intros [|[k' v'] b] H; try (cbn in H; discriminate H); try (cbn in H; contradiction H).
  - constructor.
  - rewrite !flat_cons in H. cbn [same_shape] in H. destruct H as (E & K & H). injection E as ->. constructor; [auto|apply IH; exact H].
Qed.

Section Programs.
  Variable encoderOf : Z -> option (value -> option bytes).
  Variable timeString : Z -> bytes.
  Variable timeFormat : bytes -> Z -> bytes.
  Variable trimSpace : bytes -> bytes.
  Variable argsText : list value -> bytes.
  Variable panicText : bytes.
  Variable decimal : Z -> bytes.
  Variable durationString : Z -> bytes.
  Variable int64Type : Z.
  Notation none := (fun _ : nat => Some (@nil value)).
  Notation standard := (standard encoderOf timeString timeFormat trimSpace argsText panicText decimal durationString int64Type).
  Notation hrfFormatterOf := (hrfFormatterOf encoderOf trimSpace panicText decimal).
  Notation formatPieces := (formatPieces timeString timeFormat argsText durationString int64Type).
  Notation lines := (lines encoderOf timeString durationString int64Type).
  Notation message := (message encoderOf timeString timeFormat trimSpace).
  Notation expands := (expands encoderOf timeString timeFormat trimSpace).
  Notation knows := (OutputProofs.knows encoderOf trimSpace panicText).
  Notation Sprintf := (Sprintf encoderOf timeString timeFormat trimSpace argsText panicText).
  Notation hrf_out := (hrf_out timeFormat decimal).
  Notation record_text := (record_text encoderOf timeString timeFormat trimSpace decimal durationString int64Type).
  Notation op_shown := (op_shown encoderOf timeString timeFormat trimSpace durationString int64Type).
  Notation answers := (answers encoderOf timeString timeFormat trimSpace).

  (** This much fuel is enough for the sites and the records of such an event. *)
  Definition prints_at (fuel : nat) (name : bytes) (kvs' : list (bytes * value)) (now : Z) (m p : bytes) : Prop :=
    forall st kvs c u, SiteEvent st = name -> Sample st = flat kvs -> alike kvs kvs' -> knows fuel c u -> hrf_uses_agree u name [] kvs ->
    exists ps c', hrfFormatterOf none false fuel st c = (Returns ps, c') /\ knows fuel c' u /\
      forall ev et, error_text ([10; 27] ++ bs "[90;1merror: ") ([27] ++ bs "[0m") (Err ev) et -> Timestamp ev = now -> Properties ev = flat kvs' ->
        formatPieces none ps [] ev = Some (hrf_out false st (Level ev) now m et [] p).

  Lemma prints_fuel : forall name kvs now m p, NoDup (map fst kvs) -> message [] name kvs m -> lines true now kvs p ->
    exists n, forall fuel, (n <= fuel)%nat -> prints_at fuel name kvs now m p.
  Proof.
    intros name kvs' now m p ND M L.
    destruct (hrf_prints encoderOf timeString timeFormat trimSpace argsText panicText decimal durationString int64Type
                false name kvs' [] [] now m [] p ND (NoDup_nil _) M (lines_nil _ _ _ _ _ _) L) as (n & P).
    exists n. intros fuel F st kvs c u EN ES AL K A.
    destruct (P fuel F none st kvs [] c u EN ES AL) as (ps & c' & H1 & H2 & H3).
    - unfold LogContext. destruct (Context st); reflexivity.
    - constructor.
    - exact K.
    - exact A.
    - exists ps, c'. split; [exact H1|]. split; [exact H2|]. intros ev et ER ET EP. apply (H3 none ev [] et ER ET EP). left. reflexivity.
  Qed.

  (** And for the message of an error. *)
  Definition expands_at (fuel : nat) (name : bytes) (kvs : list (bytes * value)) (out : bytes) : Prop :=
    forall c u, knows fuel c u -> agrees u name (flat kvs) -> exists c', Sprintf fuel c name (flat kvs) = (Returns out, c') /\ knows fuel c' u.

  Lemma expands_fuel : forall t kvs out, template_ok t -> template_text t <> [] -> expands (flat kvs) (t_parts t) (t_end t) out ->
    exists n, forall fuel, (n <= fuel)%nat -> expands_at fuel (template_text t) kvs out.
  Proof.
    intros t kvs out T N X. exists (fuel_for t). intros fuel F c u K [AI AA].
    destruct (compiled encoderOf timeString timeFormat trimSpace argsText panicText t (flat kvs) (flat kvs) [] out fuel T N (same_shape_refl _) X F)
      as (g & s & G & P).
    destruct (formatterOf_known encoderOf trimSpace panicText fuel c u _ (flat kvs) g s K AA AI G) as (c' & H1 & H2).
    exists c'. split; [|exact H2]. unfold MsgfmtModel.Sprintf. unfold OutputModel.formatterOf in H1. rewrite H1.
    specialize (P []). rewrite app_nil_r in P. rewrite P. reflexivity.
  Qed.

  Definition sstats (asks : bool) : option shandler := if asks then Some SDummy else None.
  (** The pieces are those for this site. *)
  Definition made (fuel : nat) (u : uses) (st : site) (kvs : list (bytes * value)) (ps : list piece) : Prop :=
    exists c c', knows fuel c u /\ hrfFormatterOf none false fuel st c = (Returns ps, c').
  Definition inv (fuel : nat) (u : uses) (firsts : bytes -> option (site * bool)) (s : state sworld shandler) : Prop :=
    knows fuel (w_cache (world s)) u /\
    forall n, match firsts n with
              | None => byEvent s n = None
              | Some f => exists ps kvs, byEvent s n = Some (Root (mkRoot (fst f) (sstats (snd f)) (SWrite ps) NormalMode)) /\
                  SiteEvent (fst f) = n /\ Sample (fst f) = flat kvs /\ incl (hrf_uses n [] kvs) u /\ made fuel u (fst f) kvs ps
              end.

  Definition agree (u : uses) : Prop := forall f a b, In (f, a) u -> In (f, b) u -> same_shape a b.

  Lemma uses_agree : forall u name kvs, agree u -> incl (hrf_uses name [] kvs) u -> hrf_uses_agree u name [] kvs.
  Proof.
    intros u name kvs A I. unfold hrf_uses in I. cbn [map app] in I.
    assert (X : In (name, flat kvs) u) by (apply I; left; reflexivity).
    split; [split; [exact X|intros a J; exact (A _ _ _ J X)]|]. split; [intros k []|].
    intros k J. assert (Y : In (hrfProp k, flat kvs) u).
    { apply I. right. apply in_map_iff in J as ([k' v] & <- & J). apply in_map_iff. exists (k', v). split; [|exact J].
      cbn [fst]. f_equal. }
    split; [exact Y|intros a J'; exact (A _ _ _ J' Y)].
  Qed.

  Lemma same_uses_alike : forall u name a b, agree u -> incl (hrf_uses name [] a) u -> incl (hrf_uses name [] b) u -> alike a b.
  Proof. intros u name a b A I J. apply shape_alike. apply (A name); [apply I|apply J]; left; reflexivity. Qed.

  Definition err_of (err : option bytes) : option error := match err with None => None | Some t => Some (Some t) end.
  Lemma error_text_of : forall err, exists et, error_text ([10; 27] ++ bs "[90;1merror: ") ([27] ++ bs "[0m") (err_of err) et.
  Proof. intros [t|]; cbn [err_of error_text]; eexists; reflexivity. Qed.

  (** One call of log. *)
  Lemma log_standard : forall fuel u firsts level event agg ctx err kvs now fr stack (s : state sworld shandler) asks m p out,
    inv fuel u firsts s -> agree u -> incl (hrf_uses event [] kvs) u -> agg_ok kvs ->
    asks = negb (bytes_eqb agg []) || existsb (fun kv => bytes_eqb (fst kv) (bs "agg")) kvs ->
    message [] event kvs m -> lines true now kvs p -> prints_at fuel event kvs now m p ->
    (err <> None -> expands_at fuel event kvs out) ->
    let st := site_of_call ctx stack event agg (flat kvs) in
    let ev := mkEvent level ctx (err_of err) now (flat kvs) in
    let f := match firsts event with Some f => f | None => (st, asks) end in
    exists s' ts, log (standard fuel) level event agg ctx (err_of err) (flat kvs) now (fr :: stack) s
      = Ret (match err with None => None | Some t => Some (out ++ bs ": " ++ t) end) s'
      /\ inv fuel u (fun n => if bytes_eqb n event then Some f else firsts n) s'
      /\ st_levels s' = st_levels s
      /\ Forall2 record_text (if snd f && (level <? MinCallLevel (st_levels s)) then [] else [(fst f, ev)]) ts
      /\ w_out (world s') = w_out (world s) ++ ts.
  Proof.
    intros fuel u firsts level event agg ctx err kvs now fr stack s asks m p out [K B] A I G AS M L P X st ev f.
    destruct (error_text_of err) as (et & ET).
    (* A made root delivers. *)
    assert (D : forall f0 ps kvs0 (s0 : state sworld shandler), SiteEvent (fst f0) = event -> Sample (fst f0) = flat kvs0 -> incl (hrf_uses event [] kvs0) u ->
      made fuel u (fst f0) kvs0 ps -> st_levels s0 = st_levels s ->
      exists ts, Forall2 record_text (if snd f0 && (level <? MinCallLevel (st_levels s)) then [] else [(fst f0, ev)]) ts /\
      handleRoot (standard fuel) (mkRoot (fst f0) (sstats (snd f0)) (SWrite ps) NormalMode) ev s0
      = (setWorld s0 (mkWorld (w_cache (world s0)) (w_out (world s0) ++ ts)), (ev, Returned))).
    { intros [st0 asks0] ps kvs0 s0 EN ES I0 (c & c' & KC & MK) LV. cbn [fst snd] in *.
      destruct (P st0 kvs0 c u EN ES (same_uses_alike u event kvs0 kvs A I0 I) KC (uses_agree u event kvs0 A I0)) as (ps' & c1 & MK' & _ & PR).
      rewrite MK in MK'. injection MK' as <- <-. specialize (PR ev et ET eq_refl eq_refl).
      assert (RT : record_text (st0, ev) (hrf_out false st0 level now m et [] p)).
      { exists kvs. split; [reflexivity|]. apply hrf_text; [cbn [fst]; rewrite EN; exact M|exact ET|apply lines_nil|exact L]. }
      assert (W0 : mkWorld (w_cache (world s0)) (w_out (world s0) ++ []) = world s0) by (rewrite app_nil_r; destruct (world s0); reflexivity).
      destruct asks0; cbn [sstats andb].
      - destruct (level <? MinCallLevel (st_levels s)) eqn:LT.
        + exists []. split; [constructor|]. apply handleRoot_delivers. cbn [r_stats r_out]. apply deliver_stats; [rewrite LV; apply Z.ltb_lt; exact LT|].
          rewrite W0. reflexivity.
        + eexists. split; [constructor; [exact RT|constructor]|]. apply handleRoot_delivers. cbn [r_stats r_out].
          apply deliver_both with (ev1 := ev) (w1 := mkWorld (w_cache (world s0)) (w_out (world s0) ++ [hrf_out false st0 level now m et [] p]));
            [rewrite LV; apply Z.ltb_ge; exact LT| |reflexivity].
          cbn [handle OutputSpec.standard]. rewrite PR. reflexivity.
      - eexists. split; [constructor; [exact RT|constructor]|]. apply handleRoot_delivers. cbn [r_stats r_out]. apply deliver_output.
        cbn [handle OutputSpec.standard]. rewrite PR. reflexivity. }
    (* After the delivery. *)
    assert (T : forall (s0 : state sworld shandler) ts firsts', st_levels s0 = st_levels s -> inv fuel u firsts' s0 ->
      exists s', (match Err ev with
        | None => Ret None (setWorld s0 (mkWorld (w_cache (world s0)) (w_out (world s0) ++ ts)))
        | Some text =>
          let '(w, errMsg) := sprint (standard fuel) event (flat kvs) (world (setWorld s0 (mkWorld (w_cache (world s0)) (w_out (world s0) ++ ts)))) in
          let s := setWorld (setWorld s0 (mkWorld (w_cache (world s0)) (w_out (world s0) ++ ts))) w in
          match errMsg, text with
          | Returns errMsg, Some text => Ret (Some (errMsg ++ bs ": " ++ text)) s
          | Returns _, None => Pan s
          | Panics, _ => Pan s
          | Unfinished, _ => Never s
          end
        end) = Ret (match err with None => None | Some t => Some (out ++ bs ": " ++ t) end) s'
        /\ inv fuel u firsts' s' /\ st_levels s' = st_levels s /\ w_out (world s') = w_out (world s0) ++ ts).
    { intros s0 ts firsts' LV [K0 B0]. destruct err as [t|]; cbn [err_of Err ev].
      - destruct (X ltac:(discriminate) (w_cache (world s0)) u K0) as (c' & SP & K1).
        { destruct (uses_agree u event kvs A I) as [U _]. exact U. }
        cbn [sprint OutputSpec.standard setWorld world w_cache w_out]. rewrite SP. eexists. split; [reflexivity|].
        split; [split; [exact K1|exact B0]|]. split; [exact LV|reflexivity].
      - eexists. split; [reflexivity|]. split; [split; [exact K0|exact B0]|]. split; [exact LV|reflexivity]. }
    unfold log, getHandler. cbn [others OutputSpec.standard]. pose proof (B event) as BE. unfold f. destruct (firsts event) as [f0|] eqn:F.
    - destruct BE as (ps & kvs0 & BE & EN & ES & I0 & MK). rewrite BE. cbn [handlerHandle].
      destruct (D f0 ps kvs0 s EN ES I0 MK eq_refl) as (ts & TS & HR). fold ev. rewrite HR.
      destruct (T s ts firsts eq_refl (conj K B)) as (s' & R & IV & LV & WO). exists s', ts. split; [exact R|]. split; [|auto].
      destruct IV as [IV1 IV2]. split; [exact IV1|]. intro n. destruct (bytes_eqb n event) eqn:Q; [|apply IV2].
      apply bytes_eqb_eq in Q. subst n. specialize (IV2 event). rewrite F in IV2. exact IV2.
    - rewrite BE. unfold newHandler.
      match goal with |- context [newRootHandler _ ?x _ _] => replace x with st end.
      2:{ unfold st, site_of_call, call_place, Caller. destruct stack; reflexivity. }
      destruct (P st kvs (w_cache (world s)) u eq_refl eq_refl (same_uses_alike u event kvs kvs A I I) K (uses_agree u event kvs A I)) as (ps & c' & MK & K1 & _).
      rewrite (newRootHandler_builds (standard fuel) st NormalMode s (sstats asks) (SWrite ps) (mkWorld c' (w_out (world s)))).
      2:{ exists (world s). cbn [aggregatorHandlerOf writerHandlerOf OutputSpec.standard]. rewrite MK. split; [|reflexivity]. f_equal. rewrite AS.
          unfold StatsModel.HandlerOf. cbn [Agg st site_of_call]. destruct (negb (bytes_eqb agg [])); [reflexivity|]. cbn [Sample st site_of_call].
          destruct (findAgg_flat kvs G) as (a & -> & [[-> ->]|[N ->]]); [reflexivity|].
          destruct a as [a|]; [reflexivity|contradiction N; reflexivity]. }
      cbv beta iota zeta. set (s0 := storeEvent _ _ _).
      assert (MD : made fuel u st kvs ps) by (exists (w_cache (world s)), c'; split; [exact K|exact MK]).
      destruct (D (st, asks) ps kvs s0 eq_refl eq_refl I MD eq_refl) as (ts & TS & HR). cbn [fst snd] in HR, TS. cbn [handlerHandle]. fold ev. rewrite HR.
      destruct (T s0 ts (fun n => if bytes_eqb n event then Some (st, asks) else firsts n) eq_refl) as (s' & R & IV & LV & WO).
      { split; [exact K1|]. intro n. unfold s0. cbn [byEvent setWorld storeEvent]. destruct (bytes_eqb n event) eqn:Q.
        - apply bytes_eqb_eq in Q. subst n. exists ps, kvs. cbn [fst snd]. auto.
        - apply B. }
      exists s', ts. split; [exact R|]. split; [exact IV|]. split; [exact LV|]. split; [exact TS|exact WO].
  Qed.

  (** What each call of the program needs. *)
  Definition op_at (fuel : nat) (o : op) : Prop :=
    match o with
    | OPlain _ event kvs now _ =>
      agg_ok kvs /\ exists m p, message [] event kvs m /\ lines true now kvs p /\ prints_at fuel event kvs now m p
    | OCall _ event err kvs now _ =>
      agg_ok kvs /\ (exists m p, message [] event kvs m /\ lines true now kvs p /\ prints_at fuel event kvs now m p) /\
      (err <> None -> exists t out, template_ok t /\ event = template_text t /\ event <> [] /\
        expands (flat kvs) (t_parts t) (t_end t) out /\ expands_at fuel event kvs out)
    | OSetMin _ => True
    end.
  Lemma ops_fuel : forall ops, Forall op_shown ops -> exists n, forall fuel, (n <= fuel)%nat -> Forall (op_at fuel) ops.
  Proof.
    induction ops as [|o ops IH]; intro H; [exists 0%nat; constructor|]. inversion H as [|? ? O H']; subst. destruct (IH H') as (n & N).
    assert (Y : exists n, forall fuel, (n <= fuel)%nat -> op_at fuel o).
    { destruct o as [md event kvs now stack|md event err kvs now stack|l]; cbn [OutputSpec.op_shown op_at] in *.
      - destruct O as (G & ND & (m & M) & (p & L)). destruct (prints_fuel event kvs now m p ND M L) as (k & Q). exists k. intros fuel F.
        split; [exact G|]. exists m, p. auto.
      - destruct O as (G & ND & (m & M) & (p & L) & X). destruct (prints_fuel event kvs now m p ND M L) as (k & Q).
        destruct err as [e|].
        + destruct (X ltac:(discriminate)) as (t & out & T & -> & N' & EX). destruct (expands_fuel t kvs out T N' EX) as (k2 & Q2).
          exists (k + k2)%nat. intros fuel F. split; [exact G|]. split; [exists m, p; split; [exact M|]; split; [exact L|]; apply Q; lia|].
          intros _. exists t, out. repeat (split; [assumption||reflexivity|]). apply Q2. lia.
        + exists k. intros fuel F. split; [exact G|]. split; [exists m, p; auto|]. intro C. contradiction C. reflexivity.
      - exists 0%nat. auto. }
    destruct Y as (n2 & Y). exists (n + n2)%nat. intros fuel F. constructor; [apply Y; lia|apply N; lia].
  Qed.

  Lemma inv_setLevel : forall fuel u firsts l (s : state sworld shandler), inv fuel u firsts s -> inv fuel u firsts (mkState l (byEvent s) (byPlace s) (world s)).
  Proof. intros fuel u firsts l s K. exact K. Qed.

  Lemma ops_standard : forall fuel u, agree u -> forall ops firsts (s : state sworld shandler), Forall (op_at fuel) ops -> incl (flat_map op_uses ops) u ->
    inv fuel u firsts s ->
    exists s' rs ts, execute (standard fuel) ops s = Some (s', rs) /\ answers ops rs /\
      Forall2 record_text (written (MinLevel (st_levels s)) (MinCallLevel (st_levels s)) firsts ops) ts /\ w_out (world s') = w_out (world s) ++ ts.
  Proof.
    intros fuel u A. induction ops as [|o ops IH]; intros firsts s O U K.
    - exists s, [], []. split; [reflexivity|]. split; [constructor|]. split; [constructor|]. rewrite app_nil_r. reflexivity.
    - inversion O as [|? ? OK O']; subst. cbn [flat_map] in U.
      assert (U1 : incl (op_uses o) u) by (intros x X; apply U; apply in_or_app; left; exact X).
      assert (U2 : incl (flat_map op_uses ops) u) by (intros x X; apply U; apply in_or_app; right; exact X).
      destruct o as [md event kvs now stack|md event err kvs now stack|l]; cbn [op_uses op_at] in U1, OK.
      + cbn [execute written logged]. destruct OK as (G & m & p & M & L & P).
        destruct (gated md && (level_of md <? MinLevel (st_levels s)) || suppressed md) eqn:GT.
        * replace (invoke (standard fuel) md event (flat kvs) now stack s) with (@Ret (state sworld shandler) unit tt s).
          { destruct (IH firsts s O' U2 K) as (s' & rs & ts & X1 & X2 & X3). exists s', rs, ts. split; [exact X1|]. split; [constructor; exact X2|exact X3]. }
          symmetry. apply orb_true_iff in GT. destruct GT as [GT|GT]; [|apply invoke_suppressed; exact GT].
          apply andb_true_iff in GT. destruct GT as [GT LL]. apply invoke_below; [exact GT|apply Z.ltb_lt; exact LL].
        * destruct (invoke_passes (standard fuel) md event (flat kvs) now stack s) as [fr ->].
          { apply orb_false_iff in GT. destruct GT as [GT LL]. split; [|exact LL]. intro GM. rewrite GM in GT. cbn [andb] in GT.
            apply Z.ltb_ge. exact GT. }
          destruct (log_standard fuel u firsts (level_of md) event [] (context_of md) None kvs now fr stack s
                     (existsb (fun kv => bytes_eqb (fst kv) (bs "agg")) kvs) m p [] K A U1 G eq_refl M L P) as (s1 & t1 & L1 & K1 & V1 & R1 & W1).
          { intro C. contradiction C. reflexivity. }
          cbn [err_of] in L1. rewrite L1. cbn [ignore].
          destruct (IH _ s1 O' U2 K1) as (s2 & rs & ts & X1 & X2 & X3 & X4). exists s2, rs, (t1 ++ ts). split; [exact X1|]. split; [constructor; exact X2|].
          rewrite X4, W1, <- app_assoc. split; [|reflexivity]. rewrite V1 in X3. cbn [SiteEvent site_of_call Level]. apply Forall2_app; [exact R1|exact X3].
      + cbn [execute written logged]. destruct OK as (G & (m & p & M & L & P) & X). destruct err as [t|].
        * destruct (X ltac:(discriminate)) as (t0 & out & T0 & E0 & N0 & EX & EA).
          destruct (invokeCall_fails (standard fuel) md event (Some t) (flat kvs) now stack s) as [fr Q]. unfold error in *. rewrite Q.
          destruct (log_standard fuel u firsts (failure_level_of md) event (bs "call") (call_context_of md) (Some t) kvs now fr stack s
                     true m p out K A U1 G eq_refl M L P (fun _ => EA)) as (s1 & t1 & L1 & K1 & V1 & R1 & W1).
          cbn [err_of] in L1. unfold error in *. rewrite L1.
          destruct (IH _ s1 O' U2 K1) as (s2 & rs & ts & X1 & X2 & X3 & X4). rewrite X1. eexists. eexists. exists (t1 ++ ts).
          split; [reflexivity|]. split; [eapply answers_failure; eassumption|].
          cbn [fst]. rewrite X4, W1, <- app_assoc. split; [|reflexivity]. rewrite V1 in X3. cbn [SiteEvent site_of_call Level]. apply Forall2_app; [exact R1|exact X3].
        * destruct (call_level_of md <? MinLevel (st_levels s)) eqn:LL.
          { rewrite invokeCall_below by (apply Z.ltb_lt; exact LL).
            destruct (IH firsts s O' U2 K) as (s2 & rs & ts & X1 & X2 & X3). rewrite X1. eexists. eexists. exists ts. split; [reflexivity|].
            split; [constructor; exact X2|exact X3]. }
          destruct (invokeCall_passes (standard fuel) md event (flat kvs) now stack s) as [fr ->]; [apply Z.ltb_ge; exact LL|].
          destruct (log_standard fuel u firsts (call_level_of md) event (bs "call") (call_context_of md) None kvs now fr stack s
                     true m p [] K A U1 G eq_refl M L P) as (s1 & t1 & L1 & K1 & V1 & R1 & W1).
          { intro C. contradiction C. reflexivity. }
          cbn [err_of] in L1. rewrite L1. cbn [returnNil].
          destruct (IH _ s1 O' U2 K1) as (s2 & rs & ts & X1 & X2 & X3 & X4). rewrite X1. eexists. eexists. exists (t1 ++ ts).
          split; [reflexivity|]. split; [constructor; exact X2|].
          cbn [fst]. rewrite X4, W1, <- app_assoc. split; [|reflexivity]. rewrite V1 in X3. cbn [SiteEvent site_of_call Level]. apply Forall2_app; [exact R1|exact X3].
      + cbn [execute written].
        destruct (IH firsts (mkState (SetMinLevel l) (byEvent s) (byPlace s) (world s)) O' U2 (inv_setLevel fuel u firsts _ s K)) as (s2 & rs & ts & X1 & X2 & X3).
        exists s2, rs, ts. split; [exact X1|]. split; [constructor; exact X2|exact X3].
  Qed.

  Lemma program : forall ops, Forall op_shown ops -> consistent [] (flat_map op_uses ops) ->
    exists n, forall fuel, (n <= fuel)%nat -> exists s' rs, execute (standard fuel) ops start = Some (s', rs) /\ answers ops rs /\
      Forall2 record_text (written 10 15 (fun _ => None) ops) (w_out (world s')).
  Proof.
    intros ops O C. destruct (ops_fuel ops O) as (n & N). exists n. intros fuel F.
    destruct (ops_standard fuel (flat_map op_uses ops) C ops (fun _ => None) start (N fuel F) (incl_refl _)) as (s' & rs & ts & X1 & X2 & X3 & X4).
    { split; [intros t g L; discriminate L|reflexivity]. }
    exists s', rs. split; [exact X1|]. split; [exact X2|]. rewrite X4. exact X3.
  Qed.
End Programs.
