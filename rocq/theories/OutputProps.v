(** C33, C48, C57-C60: log contexts and the output formats. *)
From Verif Require Import Base JsonStrSpec JsonSpec JsonLexProofs ParseModel ParseSpec MsgfmtModel MsgfmtSpec MsgfmtBytesProofs MsgfmtProofs MsgfmtTopProofs
  CountlogModel CountlogSpec OutputModel OutputSpec OutputProofs OutputProgProofs.
From Verif Require StatsModel StatsSpec.
From Verif Require Import MsgfmtProps.
Local Arguments Returns {A}. Local Arguments Panics {A}. Local Arguments Unfinished {A}.

Local Notation scan := JsonLexProofs.scan.

(** * C33: contexts *)
(** Ctx twice is Ctx once. *)
Theorem C33_ctx_idempotent : forall h c, let '(h1, c1) := Ctx h c in Ctx h1 c1 = (h1, c1).
Proof. intros h [| | |]; reflexivity. Qed.

(** The values of the wrapped context stay in reach, except of the one key of the package. *)
Theorem C33_ctx_values : forall h c key, key <> 1010010001 -> Value (snd (Ctx h c)) key = Value c key.
Proof.
  intros h c key K. assert (Q : forall c l, Value (Wrapped c l) key = Value c key).
  { intros c0 l. cbn [Value]. unfold LogContextKey. rewrite (proj2 (Z.eqb_neq _ _) K). reflexivity. }
  destruct c; cbn [Ctx snd]; auto.
Qed.

Lemma append_length : forall h l k v, List.length (appendProperty h l k v) = List.length h.
Proof.
  intros h l k v. unfold appendProperty. destruct (skipn l h) as [|p r] eqn:S'.
  - rewrite app_nil_r. rewrite firstn_all2; [reflexivity|]. apply (f_equal (@List.length _)) in S'. rewrite skipn_length in S'. cbn in S'. lia.
  - apply (f_equal (@List.length _)) in S'. rewrite skipn_length in S'. rewrite app_length, firstn_length. cbn [List.length] in *. lia.
Qed.
Lemma append_properties : forall h l k v l', (l < List.length h)%nat ->
  properties (appendProperty h l k v) l' = properties h l' ++ (if Nat.eqb l l' then [VStr k; v] else []).
Proof.
  induction h as [|p h IH]; intros l k v l' L; [cbn in L; lia|]. destruct l as [|l].
  - unfold appendProperty, properties. cbn [firstn skipn app]. destruct l'; cbn [nth Nat.eqb]; [reflexivity|now rewrite app_nil_r].
  - destruct l' as [|l'].
    + unfold appendProperty, properties. cbn. now rewrite app_nil_r.
    + cbn [List.length] in L. specialize (IH l k v l' ltac:(lia)). unfold appendProperty, properties in *. cbn [firstn skipn app nth Nat.eqb]. exact IH.
Qed.
Lemma nearest_get : forall c l, nearest c l -> GetLogContext c = Some l.
Proof.
  intros c l N. induction N as [inner l|c k v l K N IH]; [reflexivity|]. unfold GetLogContext in *. cbn [Value]. unfold LogContextKey in *.
  rewrite (proj2 (Z.eqb_neq _ _) K). exact IH.
Qed.

(** After any sequence of calls of Add, AddLogContext and Ctx, each log context has what it had, and what was added to it, in order and
    once; AddLogContext adds to the nearest one. *)
Theorem C33_added : forall ops h l kvs, Forall (cop_known (List.length h)) ops -> adds_all l ops kvs -> (l < List.length h)%nat ->
  exists h', crun h ops = Some h' /\ properties h' l = properties h l ++ flat kvs.
Proof.
  induction ops as [|o ops IH]; intros h l kvs K A L.
  - inversion A; subst. exists h. split; [reflexivity|]. cbn. now rewrite app_nil_r.
  - inversion A as [|? ? a b O B]; subst. inversion K as [|? ? KO K']; subst.
    assert (X : exists h1, cstep h o = Some h1 /\ (List.length h <= List.length h1)%nat /\ properties h1 l = properties h l ++ flat a).
    { destruct O as [c k v LC|c k v l' LC NE|c k v N|c k v l' N NE|c]; cbn [cstep cop_known] in *.
      - destruct LC. eexists. split; [reflexivity|]. rewrite append_length, append_properties by assumption. rewrite Nat.eqb_refl. split; [lia|reflexivity].
      - destruct LC. destruct KO as (l2 & LC & L2). inversion LC; subst. eexists. split; [reflexivity|]. rewrite append_length, append_properties by assumption.
        rewrite (proj2 (Nat.eqb_neq _ _) NE). split; [lia|reflexivity].
      - unfold AddLogContext. rewrite (nearest_get _ _ N). eexists. split; [reflexivity|]. rewrite append_length, append_properties by assumption.
        rewrite Nat.eqb_refl. split; [lia|reflexivity].
      - destruct KO as (l2 & N2 & L2). pose proof (nearest_get _ _ N) as Q. pose proof (nearest_get _ _ N2) as Q2. rewrite Q in Q2. injection Q2 as <-.
        unfold AddLogContext. rewrite Q. eexists. split; [reflexivity|]. rewrite append_length, append_properties by assumption.
        rewrite (proj2 (Nat.eqb_neq _ _) NE). split; [lia|reflexivity].
      - eexists. split; [reflexivity|]. cbn [StatsSpec.flat flat_map]. rewrite app_nil_r.
        destruct c; cbn [Ctx fst]; try (split; [lia|reflexivity]);
          (rewrite app_length; split; [cbn; lia|]; unfold properties; now apply app_nth1). }
    destruct X as (h1 & S1 & L1 & P1). cbn [crun]. rewrite S1. cbn [obind].
    destruct (IH h1 l b) as (h2 & R & P2); [|exact B|lia|].
    + eapply Forall_impl; [|exact K']. intros o' Q. destruct o'; cbn [cop_known] in *; auto; destruct Q as (l2 & Q & Q2); exists l2; split; auto; lia.
    + exists h2. split; [exact R|]. rewrite P2, P1, flat_app, app_assoc. reflexivity.
Qed.

(** A context derived with WithValue finds the same log context, ... *)
Theorem C33_derived : forall c k v l, k <> 1010010001 -> nearest c l -> GetLogContext (WithValue c k v) = Some l.
Proof. intros c k v l K N. apply nearest_get. constructor; assumption. Qed.
(** ... but Ctx of it starts with nothing. *)
Theorem C33_ctx_of_derived_refuted : forall h c k v, let '(h1, c1) := Ctx h (WithValue c k v) in
  GetLogContext c1 = Some (List.length h) /\ properties h1 (List.length h) = [].
Proof. intros. split; [reflexivity|]. unfold properties. rewrite app_nth2 by lia. rewrite Nat.sub_diag. reflexivity. Qed.

(** AddLogContext on a context without a log context does nothing. *)
Theorem C33_no_log_context : forall h c k v, GetLogContext c = None -> AddLogContext h c k v = h.
Proof. intros h c k v H. unfold AddLogContext. now rewrite H. Qed.
Example C33_no_log_context_example : AddLogContext [[]] (WithValue Background 7 (HLog 0)) (bs "k") (VStr (bs "v")) = [[]].
Proof. reflexivity. Qed.

(** Add to a nil *Context panics. *)
Theorem C33_add_nil_refuted : forall h k v, Add h (snd (Ctx h NilContext)) k v = None.
Proof. reflexivity. Qed.

Section Formats.
  Variable encoderOf : Z -> option (value -> option bytes).
  Variable timeString : Z -> bytes.
  Variable timeFormat : bytes -> Z -> bytes.
  Variable trimSpace : bytes -> bytes.
  Variable argsText : list value -> bytes.
  Variable panicText : bytes.
  Variable decimal : Z -> bytes.
  Variable durationString : Z -> bytes.
  Variable int64Type : Z.
  Variable intType : Z.
  Notation cache_after := (cache_after encoderOf timeString timeFormat trimSpace argsText panicText).
  Notation hrfFormatterOf := (hrfFormatterOf encoderOf trimSpace panicText decimal).
  Notation compactFormatterOf := (compactFormatterOf encoderOf trimSpace panicText decimal).
  Notation printfFormatterOf := (printfFormatterOf encoderOf trimSpace panicText intType).
  Notation printfFormat := (printfFormat timeString timeFormat argsText intType).
  Notation formatPieces := (formatPieces timeString timeFormat argsText durationString int64Type).
  Notation formatPiece := (formatPiece timeString timeFormat argsText durationString int64Type).
  Notation hrf_record := (hrf_record encoderOf timeString timeFormat trimSpace decimal durationString int64Type).
  Notation compact_record := (compact_record encoderOf timeString timeFormat trimSpace decimal).
  Notation expands := (expands encoderOf timeString timeFormat trimSpace).
  Notation knows := (OutputProofs.knows encoderOf trimSpace panicText).

  Lemma consistent_agrees : forall h u f s, consistent h u -> In (f, s) u -> agrees (h ++ u) f s.
  Proof. intros h u f s C I. split; [apply in_or_app; right; exact I|]. intros a A. exact (C f a s A I). Qed.
  Lemma in_property : forall before middle k (kvs : list (bytes * value)) (s : list value), In k (map fst kvs) ->
    In (property_format before middle k, s) (map (fun kv : bytes * value => (property_format before middle (fst kv), s)) kvs).
  Proof. intros before middle k kvs s I. apply in_map_iff in I as ([k' v] & <- & I). apply in_map_iff. exists (k', v). auto. Qed.
  Lemma hrf_consistent : forall h name ctx kvs, consistent h (hrf_uses name ctx kvs) -> hrf_uses_agree (h ++ hrf_uses name ctx kvs) name ctx kvs.
  Proof.
    intros h name ctx kvs C. split; [|split].
    - apply consistent_agrees; [exact C|left; reflexivity].
    - intros k I. change (hrfProp k) with (property_format [10] (bs ": ") k). apply consistent_agrees; [exact C|]. right. apply in_or_app. left.
      now apply in_property.
    - intros k I. change (hrfProp k) with (property_format [10] (bs ": ") k). apply consistent_agrees; [exact C|]. right. apply in_or_app. right.
      now apply in_property.
  Qed.

  (** * C57: human readable records *)
  (** The formatter made at the first event of a name, with properties [kvs] and [ctx] of its context, prints the record of every later
      event with the properties [kvs'], [ctx'] of the same names and kinds.  It does not matter which formats were used before ([h]), if
      they were used with the same shape.  Properties [later], added to the context after [ctx], are not shown. *)
  Theorem C57_hrf_partial : forall h show name ctx kvs ctx' kvs' later level err now m et c p,
    consistent h (hrf_uses name ctx kvs) -> alike kvs kvs' -> alike ctx ctx' -> NoDup (map fst kvs') -> NoDup (map fst ctx') ->
    message encoderOf timeString timeFormat trimSpace [] name kvs' m ->
    error_text ([10; 27] ++ bs "[90;1merror: ") ([27] ++ bs "[0m") err et ->
    lines encoderOf timeString durationString int64Type false now ctx' c -> lines encoderOf timeString durationString int64Type true now kvs' p ->
    exists n, forall fuel, (n <= fuel)%nat -> forall lc st cx cx', SiteEvent st = name -> Sample st = flat kvs -> Context st = Some cx -> lc cx = Some (flat ctx) ->
    exists ps c', hrfFormatterOf lc show fuel st (cache_after fuel [] h) = (Returns ps, c') /\
      forall lc' space, lc' cx' = Some (flat ctx' ++ later) ->
        formatPieces lc' ps space (mkEvent level (Some cx') err now (flat kvs'))
        = Some (space ++ m ++ (if show then [10] ++ grey (bs "timestamp: " ++ timeFormat (bs "15:04:05.000") now) else []) ++ et ++ c ++ p
                ++ grey (if 40 <=? level then [10] ++ bs "location: " ++ place decimal st else []) ++ [10]).
  Proof.
    intros h show name ctx kvs ctx' kvs' later level err now m et c p C AK AC NK NC M ER LC LP.
    destruct (hrf_prints encoderOf timeString timeFormat trimSpace argsText panicText decimal durationString int64Type
                show name kvs' ctx' later now m c p NK NC M LC LP) as (n & P).
    exists n. intros fuel F lc st cx cx' EN ES EC EL.
    destruct (P fuel F lc st kvs ctx (cache_after fuel [] h) (h ++ hrf_uses name ctx kvs) EN ES AK) as (ps & c' & H1 & H2 & H3).
    - unfold LogContext. rewrite EC, EL. reflexivity.
    - exact AC.
    - eapply knows_more; [apply knows_history|]. intros x X. apply in_or_app. left. exact X.
    - now apply hrf_consistent.
    - exists ps, c'. split; [exact H1|]. intros lc' space L. rewrite (H3 lc' (mkEvent level (Some cx') err now (flat kvs')) space et ER eq_refl eq_refl).
      + reflexivity.
      + right. exists cx'. auto.
  Qed.

  (** The same without context. *)
  Theorem C57_hrf_no_context_partial : forall h show name kvs kvs' level err now m et p,
    consistent h (hrf_uses name [] kvs) -> alike kvs kvs' -> NoDup (map fst kvs') ->
    message encoderOf timeString timeFormat trimSpace [] name kvs' m ->
    error_text ([10; 27] ++ bs "[90;1merror: ") ([27] ++ bs "[0m") err et ->
    lines encoderOf timeString durationString int64Type true now kvs' p ->
    exists n, forall fuel, (n <= fuel)%nat -> forall lc st, SiteEvent st = name -> Sample st = flat kvs -> Context st = None ->
    exists ps c', hrfFormatterOf lc show fuel st (cache_after fuel [] h) = (Returns ps, c') /\
      forall lc' space cx, formatPieces lc' ps space (mkEvent level cx err now (flat kvs'))
        = Some (space ++ m ++ (if show then [10] ++ grey (bs "timestamp: " ++ timeFormat (bs "15:04:05.000") now) else []) ++ et ++ p
                ++ grey (if 40 <=? level then [10] ++ bs "location: " ++ place decimal st else []) ++ [10]).
  Proof.
    intros h show name kvs kvs' level err now m et p C AK NK M ER LP.
    destruct (hrf_prints encoderOf timeString timeFormat trimSpace argsText panicText decimal durationString int64Type
                show name kvs' [] [] now m [] p NK (NoDup_nil _) M (lines_nil _ _ _ _ _ _) LP) as (n & P).
    exists n. intros fuel F lc st EN ES EC.
    destruct (P fuel F lc st kvs [] (cache_after fuel [] h) (h ++ hrf_uses name [] kvs) EN ES AK) as (ps & c' & H1 & H2 & H3).
    - unfold LogContext. rewrite EC. reflexivity.
    - constructor.
    - eapply knows_more; [apply knows_history|]. intros x X. apply in_or_app. left. exact X.
    - now apply hrf_consistent.
    - exists ps, c'. split; [exact H1|]. intros lc' space cx. rewrite (H3 lc' (mkEvent level cx err now (flat kvs')) space et ER eq_refl eq_refl).
      + reflexivity.
      + left. reflexivity.
  Qed.

  (** What the formatters are made of. *)
  Lemma fbind_ok : forall A B (x : fm A) (f : A -> fm B) c b c', fbind x f c = (Returns b, c') ->
    exists a c1, x c = (Returns a, c1) /\ f a c1 = (Returns b, c').
  Proof. intros A B x f c b c' H. unfold fbind in H. destruct (x c) as [[a| |] c1]; try discriminate H. exists a, c1. auto. Qed.

  Definition level_free (p : piece) : Prop := p <> PCompactTimestamp.
  Definition context_free (p : piece) : Prop := forall f, p <> PCtx f.
  Lemma eventPiece_free : forall fuel call st c p c', eventPiece encoderOf trimSpace panicText fuel call st c = (Returns p, c') -> level_free p /\ context_free p.
  Proof.
    intros fuel call st c p c' H. unfold eventPiece in H. destruct (cutPrefix (bs "event!") _); [injection H as <- <-; split; discriminate|].
    destruct (cutPrefix (bs "callee!") _); [injection H as <- <-; split; discriminate|].
    apply fbind_ok in H as (f & c1 & _ & H). injection H as <- <-. split; discriminate.
  Qed.
  Lemma ctxLoop_free : forall n fuel props rest c ps c', (List.length rest <= n)%nat ->
    hrfCtxLoop encoderOf trimSpace panicText fuel props rest c = (Returns ps, c') -> Forall level_free ps.
  Proof.
    induction n as [|n IH]; intros fuel props rest c ps c' L H.
    - destruct rest; [|cbn in L; lia]. injection H as <- <-. constructor.
    - destruct rest as [|[k| | | |] rest]; try discriminate H; [injection H as <- <-; constructor|]. cbn [hrfCtxLoop] in H.
      apply fbind_ok in H as (f & c1 & _ & H). apply fbind_ok in H as (l & c2 & H1 & H). injection H as <- <-.
      assert (Forall level_free l).
      { destruct rest as [|v rest]; [injection H1 as <- <-; constructor|]. eapply IH; [|exact H1]. cbn in L. lia. }
      repeat (constructor; [discriminate|]). exact H.
  Qed.
  Lemma sampleLoop_free : forall n fuel sample i rest c ps c', (List.length rest <= n)%nat ->
    hrfSampleLoop encoderOf trimSpace panicText fuel sample i rest c = (Returns ps, c') -> Forall level_free ps.
  Proof.
    induction n as [|n IH]; intros fuel sample i rest c ps c' L H.
    - destruct rest; [|cbn in L; lia]. injection H as <- <-. constructor.
    - destruct rest as [|[k| | | |] rest]; try discriminate H; [injection H as <- <-; constructor|]. cbn [hrfSampleLoop] in H.
      apply fbind_ok in H as (f & c1 & H0 & H). apply fbind_ok in H as (l & c2 & H1 & H). injection H as <- <-.
      assert (Forall level_free l).
      { destruct rest as [|v rest]; [injection H1 as <- <-; constructor|]. eapply IH; [|exact H1]. cbn in L. lia. }
      constructor; [discriminate|]. constructor; [|constructor; [discriminate|exact H]].
      destruct (bytes_eqb k (bs "timer")); [injection H0 as <- <-; discriminate|]. apply fbind_ok in H0 as (g & c3 & _ & H0). injection H0 as <- <-. discriminate.
  Qed.
  Lemma compactLoop_free : forall n fuel sample rest c ps c', (List.length rest <= n)%nat ->
    compactLoop encoderOf trimSpace panicText fuel sample rest c = (Returns ps, c') -> Forall context_free ps.
  Proof.
    induction n as [|n IH]; intros fuel sample rest c ps c' L H.
    - destruct rest; [|cbn in L; lia]. injection H as <- <-. constructor.
    - destruct rest as [|[k| | | |] rest]; try discriminate H; [injection H as <- <-; constructor|]. cbn [compactLoop] in H.
      apply fbind_ok in H as (f & c1 & _ & H). apply fbind_ok in H as (l & c2 & H1 & H). injection H as <- <-.
      assert (Forall context_free l).
      { destruct rest as [|v rest]; [injection H1 as <- <-; constructor|]. eapply IH; [|exact H1]. cbn in L. lia. }
      constructor; [intro; discriminate|exact H].
  Qed.

  (** An error whose Error method panics (that of a nil pointer, say) cannot be printed: the panic passes through the formatter. *)
  Theorem C57_error_panics_refuted : forall lc show fuel st c ps c' lc' space level cx now props,
    hrfFormatterOf lc show fuel st c = (Returns ps, c') ->
    formatPieces lc' ps space (mkEvent level cx (Some None) now props) = None.
  Proof.
    intros lc show fuel st c ps c' lc' space level cx now props H.
    assert (F : In OutputModel.PError ps).
    { unfold OutputModel.hrfFormatterOf in H. apply fbind_ok in H as (m & c1 & H1 & H). apply fbind_ok in H as (x & c2 & H2 & H).
      apply fbind_ok in H as (y & c3 & H3 & H). injection H as <- <-. right. right. apply in_or_app. right. now left. }
    clear H. revert space. induction ps as [|p ps IH]; intro space; [destruct F|]. cbn [OutputModel.formatPieces].
    destruct F as [->|F]; [reflexivity|]. destruct (formatPiece lc' p space (mkEvent level cx (Some None) now props)); [now apply IH|reflexivity].
  Qed.

  (** The level of a record cannot be seen: levels on the same side of Warn give the same text. *)
  Theorem C57_level_refuted : forall lc show fuel st c ps c' lc' space level level' cx err now props,
    hrfFormatterOf lc show fuel st c = (Returns ps, c') -> (40 <= level <-> 40 <= level') ->
    formatPieces lc' ps space (mkEvent level cx err now props) = formatPieces lc' ps space (mkEvent level' cx err now props).
  Proof.
    intros lc show fuel st c ps c' lc' space level level' cx err now props H L.
    assert (F : Forall level_free ps).
    { unfold OutputModel.hrfFormatterOf in H. apply fbind_ok in H as (m & c1 & H1 & H). apply fbind_ok in H as (x & c2 & H2 & H).
      apply fbind_ok in H as (y & c3 & H3 & H). injection H as <- <-. constructor; [discriminate|]. constructor; [apply (eventPiece_free _ _ _ _ _ _ H1)|].
      apply Forall_app. split; [destruct show; repeat (constructor; [discriminate|]); constructor|]. constructor; [discriminate|].
      apply Forall_app. split.
      - destruct (LogContext lc st) as [pr|]; [|injection H2 as <- <-; constructor]. eapply ctxLoop_free; [apply le_n|exact H2].
      - apply Forall_app. split; [eapply sampleLoop_free; [apply le_n|exact H3]|]. repeat (constructor; [discriminate|]). constructor. }
    clear H. revert space. induction F as [|p ps Q _ IH]; intro space; [reflexivity|]. cbn [OutputModel.formatPieces].
    replace (formatPiece lc' p space (mkEvent level' cx err now props)) with (formatPiece lc' p space (mkEvent level cx err now props)).
    - destruct (formatPiece lc' p space (mkEvent level cx err now props)); [apply IH|reflexivity].
    - destruct p; try reflexivity; try (contradiction Q; reflexivity); cbn [OutputModel.formatPiece Level].
      + rewrite !colored_empty. reflexivity.
      + unfold LevelWarn. destruct (Z.leb_spec 40 level), (Z.leb_spec 40 level'); try reflexivity; lia.
  Qed.

  (** An event of the same name without context panics, once the first had a context with properties. *)
  Theorem C33_no_context_refuted : forall lc show fuel st cx c ps c' k v rest lc' space level err now props,
    Context st = Some cx -> lc cx = Some (VStr k :: v :: rest) -> hrfFormatterOf lc show fuel st c = (Returns ps, c') ->
    formatPieces lc' ps space (mkEvent level None err now props) = None.
  Proof.
    intros lc show fuel st cx c ps c' k v rest lc' space level err now props EC EL H.
    unfold OutputModel.hrfFormatterOf in H. apply fbind_ok in H as (m & c1 & H1 & H). apply fbind_ok in H as (x & c2 & H2 & H).
    apply fbind_ok in H as (y & c3 & H3 & H). injection H as <- <-.
    unfold LogContext in H2. rewrite EC, EL in H2. cbn [hrfCtxLoop] in H2. apply fbind_ok in H2 as (f & c4 & _ & H2).
    apply fbind_ok in H2 as (l & c5 & _ & H2). injection H2 as <- <-.
    assert (I : forall ps, In (PCtx f) ps -> forall space, formatPieces lc' ps space (mkEvent level None err now props) = None).
    { clear. induction ps as [|p ps IH]; intros I space; [destruct I|]. cbn [OutputModel.formatPieces]. destruct I as [->|I].
      - reflexivity.
      - destruct (formatPiece lc' p space _); [apply IH; exact I|reflexivity]. }
    apply I. right. right. apply in_or_app. right. right. apply in_or_app. left. right. left. reflexivity.
  Qed.

  (** The formats compact, printf and json do not show the properties of contexts. *)
  Theorem C33_compact_refuted : forall fuel st c ps c' lc lc' space level cx cx' err now props,
    compactFormatterOf fuel st c = (Returns ps, c') ->
    formatPieces lc ps space (mkEvent level cx err now props) = formatPieces lc' ps space (mkEvent level cx' err now props).
  Proof.
    intros fuel st c ps c' lc lc' space level cx cx' err now props H.
    assert (F : Forall context_free ps).
    { unfold OutputModel.compactFormatterOf in H. apply fbind_ok in H as (m & c1 & H1 & H). apply fbind_ok in H as (x & c2 & H2 & H). injection H as <- <-.
      constructor; [intro; discriminate|]. constructor; [intro; discriminate|]. constructor; [apply (eventPiece_free _ _ _ _ _ _ H1)|].
      constructor; [intro; discriminate|]. apply Forall_app. split; [eapply compactLoop_free; [apply le_n|exact H2]|].
      constructor; [intro; discriminate|constructor]. }
    clear H. revert space. induction F as [|p ps Q _ IH]; intro space; [reflexivity|]. cbn [OutputModel.formatPieces].
    replace (formatPiece lc' p space (mkEvent level cx' err now props)) with (formatPiece lc p space (mkEvent level cx err now props)).
    - destruct (formatPiece lc p space (mkEvent level cx err now props)); [apply IH|reflexivity].
    - destruct p; try reflexivity. contradiction (Q f). reflexivity.
  Qed.

  (** * C58: compact records *)
  Theorem C58_compact_partial : forall h name kvs kvs' level err now m et p,
    consistent h (compact_uses name kvs) -> alike kvs kvs' -> NoDup (map fst kvs') ->
    message encoderOf timeString timeFormat trimSpace (bs "call ") name kvs' m -> error_text (bs " error:") [] err et -> fields encoderOf timeString kvs' p ->
    exists n, forall fuel, (n <= fuel)%nat -> forall st, SiteEvent st = name -> Sample st = flat kvs ->
    exists ps c', compactFormatterOf fuel st (cache_after fuel [] h) = (Returns ps, c') /\
      forall lc space cx, formatPieces lc ps space (mkEvent level cx err now (flat kvs'))
        = Some (space ++ bs "[" ++ LevelName level ++ bs "] [" ++ timeFormat (bs "2006-01-02T15:04:05Z07:00") now ++ bs "]"
                ++ bs "[" ++ place decimal st ++ bs "] " ++ m ++ et ++ p ++ [10]).
  Proof.
    intros h name kvs kvs' level err now m et p C AL ND M ER LP.
    destruct (compact_prints encoderOf timeString timeFormat trimSpace argsText panicText decimal durationString int64Type name kvs' m p ND M LP) as (n & P).
    exists n. intros fuel F st EN ES.
    destruct (P fuel F st kvs (cache_after fuel [] h) (h ++ compact_uses name kvs) EN ES AL) as (ps & c' & H1 & H2 & H3).
    - eapply knows_more; [apply knows_history|]. intros x X. apply in_or_app. left. exact X.
    - apply consistent_agrees; [exact C|left; reflexivity].
    - intros k I. change (compactProp k) with (property_format (bs "||") (bs "=") k). apply consistent_agrees; [exact C|]. right. now apply in_property.
    - exists ps, c'. split; [exact H1|]. intros lc space cx. exact (H3 lc (mkEvent level cx err now (flat kvs')) space et ER eq_refl).
  Qed.

  (** * C60: records after a layout *)
  (** The layout expanded, where {message} is the expanded name of the event as a []byte. *)
  Theorem C60_printf_partial : forall h layout t name tm kvs kvs' level now m st out space,
    consistent h [(layout ++ [10], flat (printf_fields intType st level now m)); (name, flat kvs)] ->
    alike kvs kvs' -> template_ok t -> layout ++ [10] = template_text t ->
    template_ok tm -> name = template_text tm -> name <> [] -> expands (flat kvs') (t_parts tm) (t_end tm) m ->
    expands (flat (printf_fields intType st level now m)) (t_parts t) (t_end t) out -> SiteEvent st = name -> Sample st = flat kvs ->
    exists n, forall fuel, (n <= fuel)%nat -> exists f c',
      printfFormatterOf layout fuel st (cache_after fuel [] h) = (Returns f, c') /\
      forall cx err, printfFormat f space (mkEvent level cx err now (flat kvs')) = Some (space ++ out).
  Proof.
    intros h layout t name tm kvs kvs' level now m st out space C AL T TE TM TME NE XM X EN ES.
    exists (fuel_for t + fuel_for tm)%nat. intros fuel F.
    set (u := [(layout ++ [10], flat (printf_fields intType st level now m)); (name, flat kvs)]) in *.
    set (args0 := printfArgs intType [] zeroTime [] [] [] [] 0).
    assert (SH : same_shape args0 (flat (printf_fields intType st level now m))) by (cbn; repeat split; reflexivity).
    destruct (compiled encoderOf timeString timeFormat trimSpace argsText panicText t args0 (flat (printf_fields intType st level now m)) [] out fuel T) as (g & s & G & P);
      [rewrite <- TE; destruct layout; discriminate|exact SH|exact X|lia|].
    destruct (compiled encoderOf timeString timeFormat trimSpace argsText panicText tm (flat kvs) (flat kvs') [] m fuel TM) as (g2 & s2 & G2 & P2);
      [rewrite <- TME; exact NE|apply alike_shape; exact AL|exact XM|lia|].
    rewrite <- TE in G. rewrite <- TME in G2. rewrite app_nil_r in P, P2.
    set (u0 := h ++ u ++ [(layout ++ [10], args0)]).
    assert (SU : forall a b, In (layout ++ [10], a) u0 -> In (layout ++ [10], b) u0 -> same_shape a b).
    { assert (Q : forall a, In (layout ++ [10], a) u0 -> same_shape a (flat (printf_fields intType st level now m))).
      { intros a I. unfold u0 in I. rewrite app_assoc in I. apply in_app_or in I as [I|I].
        - exact (C _ _ _ I (or_introl eq_refl)).
        - destruct I as [I|[]]. injection I as <-. exact SH. }
      intros a b I J. eapply same_shape_trans; [apply Q; exact I|apply same_shape_sym; apply Q; exact J]. }
    assert (K0 : knows fuel (cache_after fuel [] h) u0).
    { eapply knows_more; [apply knows_history|]. intros x I. apply in_or_app. left. exact I. }
    assert (I0 : In (layout ++ [10], args0) u0) by (apply in_or_app; right; apply in_or_app; right; left; reflexivity).
    destruct (formatterOf_known encoderOf trimSpace panicText fuel _ u0 (layout ++ [10]) args0 g s K0 (fun a I => SU a args0 I I0) I0 G) as (c1 & F1 & K1).
    assert (I1 : In (name, flat kvs) u0) by (apply in_or_app; right; apply in_or_app; left; right; left; reflexivity).
    destruct (formatterOf_known encoderOf trimSpace panicText fuel _ u0 name (flat kvs) g2 s2 K1) as (c2 & F2 & K2); [|exact I1|exact G2|].
    { intros a I. unfold u0 in I. rewrite app_assoc in I. apply in_app_or in I as [I|I].
      - exact (C _ _ _ I (or_intror (or_introl eq_refl))).
      - destruct I as [I|[]]. injection I as E <-.
        assert (Q : same_shape (flat (printf_fields intType st level now m)) (flat kvs)).
        { apply (C name); [apply in_or_app; right; left; now rewrite <- E|right; left; reflexivity]. }
        eapply same_shape_trans; [exact SH|exact Q]. }
    eexists. exists c2. split.
    - unfold OutputModel.printfFormatterOf. rewrite (fbind_returns _ _ _ _ _ _ _ F1). rewrite EN, ES. rewrite (fbind_returns _ _ _ _ _ _ _ F2). reflexivity.
    - intros cx err. unfold OutputModel.printfFormat. cbn [messageFmt logFmt Properties Timestamp Level pf_event pf_function pf_file pf_line].
      rewrite P2. cbn [obind app]. rewrite <- EN. exact (P space).
  Qed.

  (** * C59: programs that log with the default configuration *)
  (** All calls return, the calls with an error return its text after the message, and what is written are the records. *)
  Theorem C59_program_partial : forall ops,
    Forall (op_shown encoderOf timeString timeFormat trimSpace durationString int64Type) ops -> consistent [] (flat_map op_uses ops) ->
    exists n, forall fuel, (n <= fuel)%nat -> exists s' rs,
      execute (standard encoderOf timeString timeFormat trimSpace argsText panicText decimal durationString int64Type fuel) ops start = Some (s', rs) /\
      answers encoderOf timeString timeFormat trimSpace ops rs /\
      Forall2 (record_text encoderOf timeString timeFormat trimSpace decimal durationString int64Type) (written 10 15 (fun _ => None) ops) (w_out (world s')).
  Proof. intros ops O C. apply program; assumption. Qed.

  (** * C48: JSON records *)
  Variable typeOf : value -> Z.
  Variable jsonEncoderOf : Z -> option (value -> option bytes).
  Notation jsonFormatterOf := (jsonFormatterOf decimal int64Type typeOf jsonEncoderOf).
  Notation jsonFormat := (jsonFormat int64Type).

  Lemma scan_in : forall s, Forall (fun c => c <> 34 /\ c <> 92) s -> scan In_ s = Some In_.
  Proof.
    intros s H. induction H as [|c s [A B] _ IH]; [reflexivity|]. cbn [JsonLexProofs.scan]. rewrite (proj2 (Z.eqb_neq _ _) A), (proj2 (Z.eqb_neq _ _) B). exact IH.
  Qed.
  Lemma scan_at : forall s r, ~ In 34 s -> scan Out (s ++ 64 :: r) = None.
  Proof.
    induction s as [|c s IH]; intros r N; [reflexivity|]. cbn [app JsonLexProofs.scan]. rewrite (proj2 (Z.eqb_neq c 34)) by (intros ->; apply N; left; reflexivity).
    destruct (outside c); [|reflexivity]. apply IH. intro I. apply N. right. exact I.
  Qed.

  Lemma json_scan : forall st f ev text enc t,
    ~ In 34 (Func st) -> jsonEncoderOf int64Type = Some enc -> enc (VAny int64Type (Timestamp ev)) = Some t ->
    Forall (fun c => c = 45 \/ 48 <= c <= 57) t ->
    jsonFormatterOf st = Some f -> jsonFormat f [] ev = Some text -> scan Out text = None.
  Proof.
    intros st f ev text enc t NQ EE ET TD F J. destruct (scan Out text) as [stx|] eqn:P; [exfalso|reflexivity].
    unfold OutputModel.jsonFormatterOf in F. rewrite EE in F. cbn [obind] in F.
    destruct (jsonLoop typeOf jsonEncoderOf 0 (Sample st)) as [props|]; [|discriminate F].
    apply (f_equal (fun o => match o with Some x => x | None => f end)) in F. cbn [obind] in F. cbv beta iota in F. rewrite <- F in J. clear F.
    unfold OutputModel.jsonFormat in J. cbn [jf_props jf_prefix jf_suffix jf_timestampEncoder] in J.
    destruct (jsonFormatProps props _ ev) as [before|]; [|discriminate J]. cbn [obind] in J. rewrite ET in J. cbn [obind] in J.
    apply (f_equal (fun o => match o with Some x => x | None => [] end)) in J. cbv beta iota in J. rewrite <- J in P.
    assert (TS : forall r, scan Out (bs ",timestamp:" ++ r) = None) by reflexivity.
    assert (TI : forall r, scan In_ (bs ",timestamp:" ++ t ++ (bs ",location:" ++ quote ++ Location decimal st ++ quote ++ bs "}" ++ [10]) ++ r) = None).
    { intro r. rewrite (scan_app (bs ",timestamp:") _ In_ In_ eq_refl). rewrite (scan_app t _ In_ In_).
      2:{ apply scan_in. eapply Forall_impl; [|exact TD]. intros c Q. cbn beta in Q. lia. }
      rewrite <- !app_assoc. rewrite (scan_app (bs ",location:") _ In_ In_ eq_refl). change (quote ++ ?x) with (34 :: x). cbn [JsonLexProofs.scan app quote].
      change (34 =? 34) with true. cbv iota. unfold Location. rewrite <- !app_assoc.
      replace (Func st ++ bs " @ " ++ _) with ((Func st ++ [32]) ++ 64 :: 32 :: (File st ++ bs ":" ++ decimal (Line st) ++ [34] ++ bs "}" ++ [10] ++ r))
        by (rewrite <- app_assoc; reflexivity).
      apply scan_at. intro I. apply in_app_or in I as [I|[I|[]]]; [exact (NQ I)|discriminate I]. }
    specialize (TI []). rewrite app_nil_r in TI.
    destruct (scan Out before) as [st0|] eqn:B.
    - rewrite (scan_app _ _ _ _ B) in P. destruct st0.
      + rewrite TS in P. discriminate P.
      + rewrite TI in P. discriminate P.
      + change (scan Esc (bs ",timestamp:" ++ ?x)) with (scan In_ (bs ",timestamp:" ++ x)) in P. rewrite TI in P. discriminate P.
    - rewrite (scan_app_none _ _ _ B) in P. discriminate P.
  Qed.

  (** What a record is: the properties as the encoders of the types at the first event show them *)
  Record shownProp := mkShown { sp_key : bytes; sp_sample : value; sp_name : value; sp_value : value; sp_text : bytes }.
  Theorem C48_text : forall st ev space ps enc t,
    Sample st = flat_map (fun p => [VStr (sp_key p); sp_sample p]) ps -> Properties ev = flat_map (fun p => [sp_name p; sp_value p]) ps ->
    Forall (fun p => exists e, jsonEncoderOf (typeOf (sp_sample p)) = Some e /\ e (sp_value p) = Some (sp_text p)) ps ->
    jsonEncoderOf int64Type = Some enc -> enc (VAny int64Type (Timestamp ev)) = Some t ->
    exists f, jsonFormatterOf st = Some f /\
      jsonFormat f space ev = Some (space ++ bs "{" ++ [34] ++ bs "event" ++ [34] ++ bs ":" ++ [34] ++ SiteEvent st ++ [34] ++
        flat_map (fun p => bs "," ++ [34] ++ sp_key p ++ [34] ++ bs ":" ++ sp_text p) ps ++
        bs ",timestamp:" ++ t ++ bs ",location:" ++ [34] ++ Func st ++ bs " @ " ++ File st ++ bs ":" ++ decimal (Line st) ++ [34] ++ bs "}" ++ [10]).
  Proof.
    intros st ev space ps enc t S P F EE ET.
    assert (L : forall ps before, Forall (fun p => exists e, jsonEncoderOf (typeOf (sp_sample p)) = Some e /\ e (sp_value p) = Some (sp_text p)) ps ->
      Properties ev = before ++ flat_map (fun p => [sp_name p; sp_value p]) ps ->
      exists props, jsonLoop typeOf jsonEncoderOf (lenZ before) (flat_map (fun p => [VStr (sp_key p); sp_sample p]) ps) = Some props /\
        forall sp, jsonFormatProps props sp ev = Some (sp ++ flat_map (fun p => bs "," ++ [34] ++ sp_key p ++ [34] ++ bs ":" ++ sp_text p) ps)).
    { clear. induction ps as [|p ps IH]; intros before F P.
      - exists []. split; [reflexivity|]. intro sp. cbn. now rewrite app_nil_r.
      - inversion F as [|? ? (e & E & V) F']; subst. cbn [flat_map app] in *.
        destruct (IH (before ++ [sp_name p; sp_value p]) F') as (props & A & B); [rewrite P, <- app_assoc; reflexivity|].
        exists (mkJsonProp (quote ++ sp_key p ++ quote ++ bs ":") (lenZ before + 1) e :: props). split.
        + cbn [OutputModel.jsonLoop]. rewrite E. cbn [obind].
          replace (lenZ before + 2) with (lenZ (before ++ [sp_name p; sp_value p])) by (unfold lenZ; rewrite app_length; cbn [List.length]; lia). rewrite A. reflexivity.
        + intro sp. cbn [OutputModel.jsonFormatProps jp_idx jp_encoder jp_prefix].
          assert (N : at_ (Properties ev) (lenZ before + 1) = Some (sp_value p)).
          { rewrite P. change (before ++ sp_name p :: sp_value p :: ?r) with (before ++ [sp_name p] ++ sp_value p :: r). rewrite app_assoc. unfold at_, lenZ.
            replace (Z.to_nat (Z.of_nat (List.length before) + 1)) with (List.length (before ++ [sp_name p])) by (rewrite app_length; cbn [List.length]; lia).
            rewrite nth_error_app2 by lia. rewrite Nat.sub_diag. reflexivity. }
          rewrite N. cbn [obind]. rewrite V. cbn [obind]. rewrite B. f_equal. unfold quote. repeat (rewrite <- !app_assoc; cbn [app]). reflexivity. }
    destruct (L ps [] F P) as (props & A & B). clear L. change (lenZ []) with 0 in A. rewrite <- S in A.
    unfold OutputModel.jsonFormatterOf. rewrite EE. cbn [obind]. rewrite A. cbn [obind]. eexists. split; [reflexivity|].
    unfold OutputModel.jsonFormat. cbn [jf_props jf_prefix jf_suffix jf_timestampEncoder]. rewrite B. cbn [obind]. rewrite ET. cbn [obind]. f_equal.
    unfold quote, Location. repeat (rewrite <- !app_assoc; cbn [app]). reflexivity.
  Qed.
  (** No record is JSON, whatever the event, if the name of the function contains no double quote. *)
  Theorem C48_never_json_refuted : forall st f ev text j enc t,
    ~ In 34 (Func st) -> jsonEncoderOf int64Type = Some enc -> enc (VAny int64Type (Timestamp ev)) = Some t ->
    Forall (fun c => c = 45 \/ 48 <= c <= 57) t ->
    jsonFormatterOf st = Some f -> jsonFormat f [] ev = Some text -> ~ parses text j.
  Proof.
    intros st f ev text j enc t NQ EE ET TD F J P. apply parses_scan in P. rewrite (json_scan _ _ _ _ _ _ NQ EE ET TD F J) in P. discriminate P.
  Qed.
End Formats.

(** * The claims in full, refuted *)
(** Texts of values for the examples. *)
Definition ex_dec (z : Z) : bytes := [48 + z mod 10].
Definition ex_dur (z : Z) : bytes := ex_dec z ++ bs "ns".
Definition ex_hrf := hrfFormatterOf ex_enc ex_trim [] ex_dec.
Definition ex_pieces := formatPieces ex_time ex_format ex_args ex_dur 9.
Definition ex_record := hrf_record ex_enc ex_time ex_format ex_trim ex_dec ex_dur 9.
Definition ex_standard := standard ex_enc ex_time ex_format ex_trim ex_args [] ex_dec ex_dur 9.
Definition ex_lines := lines ex_enc ex_time ex_dur 9.
Definition ex_message := message ex_enc ex_time ex_format ex_trim.

Lemma ex_key : forall k, forallb (fun r => (0 <=? r) && (r <? 128) && negb (Pattern_White_Space r) && negb (Pattern_Syntax r)) k = true ->
  match k with r :: _ => unicodeIsSpace r = false | [] => True end -> name_key k.
Proof.
  intros k F H. exists k. split; [|split; [|exact H]].
  - clear H. induction k as [|r k IH]; [reflexivity|]. cbn [forallb] in F. apply andb_true_iff in F as [F F']. rewrite !andb_true_iff in F.
    unfold runes_text in *. cbn [flat_map]. rewrite <- (IH F'). unfold utf8. destruct (Z.ltb_spec r 128); [reflexivity|lia].
  - apply ex_runes. rewrite forallb_forall in *. intros x X. specialize (F x X). rewrite !andb_true_iff in *. destruct F as [[[A B] C] D]. repeat split; auto. lia.
Qed.

(** All events of a process with distinct property names in the event and in the context: *)
Definition C57_full : Prop := forall encoderOf timeString timeFormat trimSpace argsText panicText decimal durationString int64Type lc st cx ctx kvs level now out,
  Sample st = flat kvs -> Context st = Some cx -> lc cx = Some (flat ctx) -> NoDup (map fst kvs) -> NoDup (map fst ctx) ->
  hrf_record encoderOf timeString timeFormat trimSpace decimal durationString int64Type false st level None now ctx kvs out ->
  exists n, forall fuel, (n <= fuel)%nat -> exists ps c', hrfFormatterOf encoderOf trimSpace panicText decimal lc false fuel st [] = (Returns ps, c') /\
    formatPieces timeString timeFormat argsText durationString int64Type lc ps [] (mkEvent level (Some cx) None now (flat kvs)) = Some out.
Definition ex_shared_site : site := mkSite (Some 0%nat) (bs "main") (bs "m.go") 3 (bs "event!e") [] (flat [(bs "k", VStr (bs "x"))]).
Definition ex_shared_ctx : list (bytes * value) := [(bs "a", VStr (bs "1")); (bs "k", VStr (bs "2"))].
(** A property of the event with the name of a property of the context, at another place: the event panics. *)
Theorem C57_shared_name_refuted : forall n, exists ps c',
  ex_hrf (fun _ => Some (flat ex_shared_ctx)) false (100 + n) ex_shared_site [] = (Returns ps, c') /\
  ex_pieces (fun _ => Some (flat ex_shared_ctx)) ps [] (mkEvent 30 (Some 0%nat) None 1 (flat [(bs "k", VStr (bs "x"))])) = None.
Proof. intro n. eexists. eexists. split; [vm_compute; reflexivity|]. vm_compute. reflexivity. Qed.
(** Two properties of one name: the first value twice. *)
Theorem C57_duplicate_refuted : forall n, exists ps c',
  ex_hrf (fun _ => None) false (100 + n) (mkSite None (bs "main") (bs "m.go") 3 (bs "event!e") [] (flat [(bs "k", VStr (bs "1")); (bs "k", VStr (bs "2"))])) [] = (Returns ps, c') /\
  ex_pieces (fun _ => None) ps [] (mkEvent 30 None None 1 (flat [(bs "k", VStr (bs "1")); (bs "k", VStr (bs "2"))]))
  = Some (bs "e" ++ grey ([10] ++ bs "k: 1") ++ grey ([10] ++ bs "k: 1") ++ grey [] ++ [10]).
Proof. intro n. eexists. eexists. split; [vm_compute; reflexivity|]. vm_compute. reflexivity. Qed.
Lemma ex_shared_record : exists out, ex_record false ex_shared_site 30 None 1 ex_shared_ctx [(bs "k", VStr (bs "x"))] out.
Proof.
  eexists. eapply hrf_text; [apply message_event; reflexivity|reflexivity| |].
  - unfold ex_shared_ctx. repeat (eapply lines_value; [discriminate|apply ex_key; reflexivity|apply shows_string|]). apply lines_nil.
  - eapply lines_value; [discriminate|apply ex_key; reflexivity|apply shows_string|]. apply lines_nil.
Qed.
Theorem C57_full_refuted : ~ C57_full.
Proof.
  intro F. destruct ex_shared_record as (out & R).
  destruct (F ex_enc ex_time ex_format ex_trim ex_args [] ex_dec ex_dur 9 (fun _ => Some (flat ex_shared_ctx)) ex_shared_site 0%nat
    ex_shared_ctx [(bs "k", VStr (bs "x"))] 30 1 out eq_refl eq_refl eq_refl) as (n & Q); [| |exact R|].
  - repeat constructor; cbn; intuition discriminate.
  - repeat constructor; cbn; intuition discriminate.
  - destruct (Q (100 + n)%nat ltac:(lia)) as (ps & c' & H1 & H2). destruct (C57_shared_name_refuted n) as (ps' & c2 & H3 & H4).
    unfold ex_hrf in H3. rewrite H1 in H3. injection H3 as <- <-. unfold ex_pieces in H4. rewrite H4 in H2. discriminate H2.
Qed.

(** C33 in full: what is added to a context is in every later event of it. *)
Definition C33_full : Prop := forall encoderOf timeString timeFormat trimSpace argsText panicText decimal durationString int64Type lc lc' st cx ctx later kvs level now out,
  Sample st = flat kvs -> Context st = Some cx -> lc cx = Some (flat ctx) -> lc' cx = Some (flat (ctx ++ later)) ->
  NoDup (map fst (kvs ++ ctx ++ later)) ->
  hrf_record encoderOf timeString timeFormat trimSpace decimal durationString int64Type false st level None now (ctx ++ later) kvs out ->
  exists n, forall fuel, (n <= fuel)%nat -> exists ps c', hrfFormatterOf encoderOf trimSpace panicText decimal lc false fuel st [] = (Returns ps, c') /\
    formatPieces timeString timeFormat argsText durationString int64Type lc' ps [] (mkEvent level (Some cx) None now (flat kvs)) = Some out.
Definition ex_ctx_site : site := mkSite (Some 0%nat) (bs "main") (bs "m.go") 3 (bs "event!e") [] [].
Theorem C33_added_later_refuted : forall n later, exists ps c',
  ex_hrf (fun _ => Some []) false n ex_ctx_site [] = (Returns ps, c') /\
  ex_pieces (fun _ => Some later) ps [] (mkEvent 30 (Some 0%nat) None 1 []) = Some (bs "e" ++ grey [] ++ [10]).
Proof. intros n later. eexists. eexists. split; [reflexivity|]. reflexivity. Qed.
Definition ex_ctx_text : bytes := bs "e" ++ grey ([10] ++ bs "k: 1") ++ grey [] ++ [10].
Lemma ex_ctx_record : ex_record false ex_ctx_site 30 None 1 [(bs "k", VStr (bs "1"))] [] ex_ctx_text.
Proof.
  exact (hrf_text _ _ _ _ _ _ _ false ex_ctx_site 30 None 1 [(bs "k", VStr (bs "1"))] [] (bs "e") [] (grey ([10] ++ bs "k: 1") ++ []) []
    (message_event _ _ _ _ _ _ _ _ eq_refl) eq_refl
    (lines_value _ _ _ _ false 1 (bs "k") (VStr (bs "1")) (bs "1") [] [] ltac:(discriminate) (ex_key (bs "k") eq_refl eq_refl) (shows_string _ _ _) (lines_nil _ _ _ _ _ _))
    (lines_nil _ _ _ _ _ _)).
Qed.
Theorem C33_full_refuted : ~ C33_full.
Proof.
  intro F. destruct (F ex_enc ex_time ex_format ex_trim ex_args [] ex_dec ex_dur 9 (fun _ => Some []) (fun _ => Some (flat [(bs "k", VStr (bs "1"))])) ex_ctx_site 0%nat
    [] [(bs "k", VStr (bs "1"))] [] 30 1 ex_ctx_text eq_refl eq_refl eq_refl eq_refl) as (n & Q); [|exact ex_ctx_record|].
  - repeat constructor; cbn; intuition discriminate.
  - destruct (Q n ltac:(lia)) as (ps & c' & H1 & H2). destruct (C33_added_later_refuted n (flat [(bs "k", VStr (bs "1"))])) as (ps' & c2 & H3 & H4).
    unfold ex_hrf in H3. rewrite H1 in H3. injection H3 as <- <-. unfold ex_pieces in H4. change (flat []) with (@nil value) in H2. rewrite H2 in H4. discriminate H4.
Qed.

(** C59 in full: without looking at the formats of different events. *)
Definition C59_full : Prop := forall encoderOf timeString timeFormat trimSpace argsText panicText decimal durationString int64Type ops,
  Forall (op_shown encoderOf timeString timeFormat trimSpace durationString int64Type) ops ->
  exists n, forall fuel, (n <= fuel)%nat -> exists s' rs,
    execute (standard encoderOf timeString timeFormat trimSpace argsText panicText decimal durationString int64Type fuel) ops start = Some (s', rs) /\
    Forall2 (record_text encoderOf timeString timeFormat trimSpace decimal durationString int64Type) (written 10 15 (fun _ => None) ops) (w_out (world s')).
(** Two events with a property of one name at different places: the second is not written at all. *)
Definition ex_two : list op :=
  [OPlain PInfo (bs "event!a") [(bs "j", VStr (bs "1")); (bs "k", VStr (bs "2"))] 1 []; OPlain PInfo (bs "event!b") [(bs "k", VStr (bs "3"))] 2 []].
Definition ex_written (n : nat) (ops : list op) : option (list bytes) :=
  match execute (ex_standard n) ops start with Some (s, _) => Some (w_out (world s)) | None => None end.
Theorem C59_two_events_refuted : forall n,
  ex_written (100 + n) [OPlain PInfo (bs "event!b") [(bs "k", VStr (bs "3"))] 2 []] = Some [bs "b" ++ grey ([10] ++ bs "k: 3") ++ grey [] ++ [10]] /\
  ex_written (100 + n) ex_two = Some [bs "a" ++ grey ([10] ++ bs "j: 1") ++ grey ([10] ++ bs "k: 2") ++ grey [] ++ [10]].
Proof. intro n. split; vm_compute; reflexivity. Qed.
(** In the other order a property is shown with the value of another. *)
Theorem C59_wrong_value_refuted : forall n,
  ex_written (100 + n) (rev ex_two)
  = Some [bs "b" ++ grey ([10] ++ bs "k: 3") ++ grey [] ++ [10]; bs "a" ++ grey ([10] ++ bs "j: 1") ++ grey ([10] ++ bs "k: 1") ++ grey [] ++ [10]].
Proof. intro n. vm_compute. reflexivity. Qed.
(** A property whose name is not an identifier, here user-id, or an event name without text: the call panics. *)
Theorem C59_name_refuted : forall n,
  execute (ex_standard (100 + n)) [OPlain PInfo (bs "event!login") [(bs "user-id", VStr (bs "7"))] 1 []] start = None /\
  execute (ex_standard (100 + n)) [OPlain CountlogSpec.PError [] [] 1 []] start = None /\
  execute (ex_standard (100 + n)) [OPlain CountlogSpec.PError (bs "no {such} property") [] 1 []] start = None.
Proof. intro n. repeat split; vm_compute; reflexivity. Qed.
Lemma ex_two_shown : Forall (op_shown ex_enc ex_time ex_format ex_trim ex_dur 9) ex_two.
Proof.
  repeat constructor.
  - intros v I. cbn [In] in I. destruct I as [I|[I|[]]]; discriminate I.
  - cbn. intuition discriminate.
  - cbn. intuition discriminate.
  - eexists. apply message_event. reflexivity.
  - eexists. repeat (eapply lines_value; [discriminate|apply ex_key; reflexivity|apply shows_string|]). apply lines_nil.
  - intros v I. cbn [In] in I. destruct I as [I|[]]; discriminate I.
  - cbn. intuition discriminate.
  - eexists. apply message_event. reflexivity.
  - eexists. eapply lines_value; [discriminate|apply ex_key; reflexivity|apply shows_string|]. apply lines_nil.
Qed.
Lemma forall2_length : forall A B (P : A -> B -> Prop) a b, Forall2 P a b -> List.length a = List.length b.
Proof. intros A B P a b H. induction H as [|x y a b _ _ IH]; [reflexivity|]. cbn. now rewrite IH. Qed.
Theorem C59_full_refuted : ~ C59_full.
Proof.
  intro F. destruct (F ex_enc ex_time ex_format ex_trim ex_args [] ex_dec ex_dur 9 ex_two ex_two_shown) as (n & Q).
  destruct (Q (100 + n)%nat ltac:(lia)) as (s' & rs & H & R). destruct (C59_two_events_refuted n) as [_ H']. unfold ex_written, ex_standard in H'.
  rewrite H in H'. apply forall2_length in R. injection H' as H'. rewrite H' in R. discriminate R.
Qed.

(** C60 in full: the message as text. *)
Definition C60_full : Prop := forall encoderOf timeString timeFormat trimSpace argsText panicText intType layout t name m level now st out,
  template_ok t -> layout ++ [10] = template_text t -> name <> [] -> ~ In 123 name -> m = name -> SiteEvent st = name -> Sample st = [] ->
  expands encoderOf timeString timeFormat trimSpace (VStr (bs "message") :: VStr m :: skipn 2 (flat (printf_fields intType st level now m))) (t_parts t) (t_end t) out ->
  exists n, forall fuel, (n <= fuel)%nat -> exists f c', printfFormatterOf encoderOf trimSpace panicText intType layout fuel st [] = (Returns f, c') /\
    printfFormat timeString timeFormat argsText intType f [] (mkEvent level None None now []) = Some out.
Definition ex_printf_site (name : bytes) : site := mkSite None (bs "main") (bs "m.go") 3 name [] [].
(** A message that ends with a newline loses it, and letters outside ASCII are written as hexadecimal numbers. *)
Theorem C60_message_refuted : forall n,
  (exists f c', printfFormatterOf ex_enc ex_trim [] 7 (bs "{message}") (100 + n) (ex_printf_site (bs "done" ++ [10])) [] = (Returns f, c') /\
    printfFormat ex_time ex_format ex_args 7 f [] (mkEvent 30 None None 1 []) = Some (bs "done" ++ [10])) /\
  (exists f c', printfFormatterOf ex_enc ex_trim [] 7 (bs "{message}") (100 + n) (ex_printf_site (bs "caf" ++ [195; 169])) [] = (Returns f, c') /\
    printfFormat ex_time ex_format ex_args 7 f [] (mkEvent 30 None None 1 []) = Some (bs "caf\xc3\xa9" ++ [10])).
Proof. intro n. split; eexists; eexists; (split; [vm_compute; reflexivity|]); vm_compute; reflexivity. Qed.
Definition ex_layout : template := mkTemplate [([], mkPlaceholder [] (bs "message") [] None)] [10].
Theorem C60_full_refuted : ~ C60_full.
Proof.
  intro F. destruct (F ex_enc ex_time ex_format ex_trim ex_args [] 7 (bs "{message}") ex_layout (bs "caf" ++ [195; 169]) (bs "caf" ++ [195; 169]) 30 1 (ex_printf_site (bs "caf" ++ [195; 169])) (bs "caf" ++ [195; 169; 10])) as (n & Q);
    try reflexivity; try discriminate.
  - split; cbn [t_parts t_end ex_layout]; ex_ok.
  - apply ex_notin. reflexivity.
  - change (bs "caf" ++ [195; 169; 10]) with ([] ++ (bs "caf" ++ [195; 169]) ++ [10]). constructor; [|constructor].
    eexists. split; [reflexivity|]. apply shows_string.
  - destruct (Q (100 + n)%nat ltac:(lia)) as (f & c' & H1 & H2). destruct (C60_message_refuted n) as [_ (f' & c2 & H3 & H4)].
    rewrite H1 in H3. injection H3 as <- <-. rewrite H2 in H4. discriminate H4.
Qed.

(** C48 in full. *)
Definition C48_full : Prop := forall decimal int64Type typeOf jsonEncoderOf st f ev text,
  jsonFormatterOf decimal int64Type typeOf jsonEncoderOf st = Some f -> jsonFormat int64Type f [] ev = Some text -> exists j, parses text j.
Definition ex_json (ty : Z) : option (value -> option bytes) := Some (fun v => match v with VAny _ x => Some (ex_dec x) | _ => Some (bs "null") end).
Theorem C48_full_refuted : ~ C48_full.
Proof.
  intro F. destruct (F ex_dec 9 (fun _ => 0) ex_json (ex_printf_site (bs "e")) _ (mkEvent 30 None None 1 []) _ eq_refl eq_refl) as (j & P).
  revert P. eapply (C48_never_json_refuted ex_dec 9 (fun _ => 0) ex_json (ex_printf_site (bs "e")) _ (mkEvent 30 None None 1 []));
    [apply ex_notin; reflexivity|reflexivity|reflexivity| |reflexivity|reflexivity].
  constructor; [right; vm_compute; split; discriminate|constructor].
Qed.

Print Assumptions C33_ctx_idempotent.
Print Assumptions C33_ctx_values.
Print Assumptions C33_added.
Print Assumptions C33_no_log_context.
Print Assumptions C57_error_panics_refuted.
Print Assumptions C33_derived.
Print Assumptions C33_ctx_of_derived_refuted.
Print Assumptions C33_add_nil_refuted.
Print Assumptions C57_hrf_partial.
Print Assumptions C57_hrf_no_context_partial.
Print Assumptions C57_level_refuted.
Print Assumptions C33_no_context_refuted.
Print Assumptions C33_compact_refuted.
Print Assumptions C58_compact_partial.
Print Assumptions C60_printf_partial.
Print Assumptions C59_program_partial.
Print Assumptions C48_text.
Print Assumptions C48_never_json_refuted.
Print Assumptions C57_shared_name_refuted.
Print Assumptions C57_duplicate_refuted.
Print Assumptions C57_full_refuted.
Print Assumptions C33_added_later_refuted.
Print Assumptions C33_full_refuted.
Print Assumptions C59_two_events_refuted.
Print Assumptions C59_wrong_value_refuted.
Print Assumptions C59_name_refuted.
Print Assumptions C59_full_refuted.
Print Assumptions C60_message_refuted.
Print Assumptions C60_full_refuted.
Print Assumptions C48_full_refuted.

(** * Examples *)
Definition ex_c0 : context := Wrapped Background 0.
Definition ex_c1 : context := WithValue ex_c0 5 (HOther 3).
Example C33_example :
  let ops := [CAdd ex_c0 (bs "a") (VStr (bs "1")); CCtx ex_c1; CAddLog ex_c1 (bs "b") (VStr (bs "2")); CAdd (Wrapped ex_c1 1) (bs "x") (VAny 7 3);
              CAdd ex_c0 (bs "a") (VStr (bs "3"))] in
  exists h', crun [[]; []] ops = Some h' /\ properties h' 0 = flat [(bs "a", VStr (bs "1")); (bs "b", VStr (bs "2")); (bs "a", VStr (bs "3"))].
Proof.
  intro ops. apply (C33_added ops [[]; []] 0%nat [(bs "a", VStr (bs "1")); (bs "b", VStr (bs "2")); (bs "a", VStr (bs "3"))]).
  - assert (N : nearest ex_c1 0) by (constructor; [discriminate|constructor]).
    repeat constructor; cbn [cop_known]; [exists 0%nat|exists 0%nat|exists 1%nat|exists 0%nat]; (split; [first [exact N|constructor]|cbn; lia]).
  - apply (adds_more 0 _ _ [_]); [apply adds_here; constructor|]. apply (adds_more 0 _ _ []); [apply adds_ctx|].
    apply (adds_more 0 _ _ [_]); [apply adds_near; constructor; [discriminate|constructor]|]. apply (adds_more 0 _ _ []); [apply adds_there with (l' := 1%nat); [constructor|discriminate]|].
    apply (adds_more 0 _ _ [_] []); [apply adds_here; constructor|constructor].
  - cbn. lia.
Qed.
Example C33_values_example : Value (snd (Ctx [] (WithValue Background 5 (HOther 3)))) 5 = HOther 3.
Proof. apply (C33_ctx_values [] (WithValue Background 5 (HOther 3)) 5). discriminate. Qed.
Example C33_derived_example : GetLogContext ex_c1 = Some 0%nat.
Proof. apply C33_derived; [discriminate|constructor]. Qed.

Definition ex_kvs (n : Z) (s : bytes) : list (bytes * value) := [(bs "name", VStr s); (bs "timer", VAny 9 n); (bs "n", VAny 7 n)].
Definition ex_ctx (s : bytes) : list (bytes * value) := [(bs "req", VStr s)].
Definition ex_hello : template := mkTemplate [(bs "hello ", mkPlaceholder [] (bs "name") [] None)] (bs "!").
Lemma ex_hello_ok : template_ok ex_hello.
Proof. split; cbn [t_parts t_end ex_hello]; ex_ok. Qed.
Lemma ex_hello_message : forall call n s, ex_message call (bs "hello {name}!") (ex_kvs n s) (bs "hello " ++ s ++ bs "!").
Proof.
  intros call n s. apply (message_template _ _ _ _ _ _ _ ex_hello); [discriminate|discriminate|exact ex_hello_ok|reflexivity|discriminate|].
  constructor; [|constructor]. eexists. split; [reflexivity|]. apply shows_string.
Qed.
Lemma ex_kvs_lines : forall n s now, 0 <= n -> - 2 ^ 63 <= now - n < 2 ^ 63 -> ex_lines true now (ex_kvs n s)
  (grey ([10] ++ bs "name" ++ bs ": " ++ s) ++ grey ([10] ++ bs "timer: " ++ ex_dur (now - n)) ++ grey ([10] ++ bs "n" ++ bs ": " ++ ex_dec n) ++ []).
Proof.
  intros n s now N R. apply lines_value; [discriminate|apply ex_key; reflexivity|apply shows_string|]. apply lines_timer; [reflexivity| |exact R].
  apply lines_value; [discriminate|apply ex_key; reflexivity| |apply lines_nil]. eapply shows_json; [reflexivity|]. cbn.
  destruct (Z.leb_spec 0 n); [reflexivity|lia].
Qed.
Lemma ex_kvs_nodup : forall n s, NoDup (map fst (ex_kvs n s)).
Proof. intros. repeat constructor; cbn; intuition discriminate. Qed.
Lemma ex_kvs_alike : forall n s m t, alike (ex_kvs n s) (ex_kvs m t).
Proof. intros. repeat constructor. Qed.

(** Checking uses. *)
Fixpoint shapeb (a b : list value) : bool :=
  match a, b with
  | [], [] => true
  | VStr k :: v :: a, VStr k' :: v' :: b => bytes_eqb k k' && (fst (kind v) =? fst (kind v')) && (snd (kind v) =? snd (kind v')) && shapeb a b
  | _, _ => false
  end.
Lemma shapeb_ok : forall a b, shapeb a b = true -> same_shape a b.
Proof.
  fix IH 1. intros a b H. destruct a as [|k a]; [destruct b; [exact I|discriminate H]|].
  destruct k as [k| | | |]; try discriminate H. destruct a as [|v a]; [discriminate H|]. destruct b as [|k' b]; [discriminate H|].
  destruct k' as [k'| | | |]; try discriminate H. destruct b as [|v' b]; [discriminate H|]. cbn [shapeb] in H. rewrite !andb_true_iff in H.
  destruct H as [[[A B] C] D]. apply bytes_eqb_eq in A. subst k'. cbn [same_shape]. split; [reflexivity|]. split; [|apply IH; exact D].
  destruct (kind v), (kind v'). cbn [fst snd] in *. f_equal; lia.
Qed.
Definition consistentb (h u : uses) : bool :=
  forallb (fun y => forallb (fun x => negb (bytes_eqb (fst x) (fst y)) || shapeb (snd x) (snd y)) (h ++ u)) u.
Lemma consistentb_ok : forall h u, consistentb h u = true -> consistent h u.
Proof.
  intros h u H f a b I J. unfold consistentb in H. rewrite forallb_forall in H. specialize (H _ J). rewrite forallb_forall in H. specialize (H _ I).
  cbn [fst snd] in H. replace (bytes_eqb f f) with true in H by (symmetry; apply bytes_eqb_eq; reflexivity). apply shapeb_ok. exact H.
Qed.

Definition ex_history : uses := [(bs "other {n}", flat [(bs "n", VAny 7 1)]); (bs "hello {name}!", flat (ex_kvs 4 (bs "eve")))].
Example C57_example :
  exists n, forall fuel, (n <= fuel)%nat -> forall lc st cx cx', SiteEvent st = bs "hello {name}!" -> Sample st = flat (ex_kvs 1 (bs "bob")) -> Context st = Some cx ->
    lc cx = Some (flat (ex_ctx (bs "r1"))) ->
  exists ps c', ex_hrf lc true fuel st (cache_after ex_enc ex_time ex_format ex_trim ex_args [] fuel [] ex_history) = (Returns ps, c') /\
    forall lc' space, lc' cx' = Some (flat (ex_ctx (bs "r2")) ++ [VStr (bs "added"); VStr (bs "later")]) ->
      ex_pieces lc' ps space (mkEvent 50 (Some cx') (Some (Some (bs "lost"))) 7 (flat (ex_kvs 2 (bs "ann"))))
      = Some (space ++ (bs "hello " ++ bs "ann" ++ bs "!") ++ ([10] ++ grey (bs "timestamp: " ++ bs "15:04:05.000@7"))
              ++ (([10; 27] ++ bs "[90;1merror: ") ++ bs "lost" ++ [27] ++ bs "[0m") ++ (grey ([10] ++ bs "req" ++ bs ": " ++ bs "r2") ++ [])
              ++ (grey ([10] ++ bs "name" ++ bs ": " ++ bs "ann") ++ grey ([10] ++ bs "timer: " ++ ex_dur (7 - 2)) ++ grey ([10] ++ bs "n" ++ bs ": " ++ ex_dec 2) ++ [])
              ++ grey ([10] ++ bs "location: " ++ place ex_dec st) ++ [10]).
Proof.
  refine (C57_hrf_partial ex_enc ex_time ex_format ex_trim ex_args [] ex_dec ex_dur 9 ex_history true (bs "hello {name}!") (ex_ctx (bs "r1")) (ex_kvs 1 (bs "bob"))
    (ex_ctx (bs "r2")) (ex_kvs 2 (bs "ann")) [VStr (bs "added"); VStr (bs "later")] 50 (Some (Some (bs "lost"))) 7 _ _ _ _ _ _ _ _ _ _ _ _ _).
  - apply consistentb_ok. vm_compute. reflexivity.
  - apply ex_kvs_alike.
  - repeat constructor.
  - apply ex_kvs_nodup.
  - repeat constructor; cbn; intuition discriminate.
  - apply ex_hello_message.
  - reflexivity.
  - apply lines_value; [discriminate|apply ex_key; reflexivity|apply shows_string|apply lines_nil].
  - apply ex_kvs_lines; lia.
Qed.
Example C57_error_panics_example : forall st, SiteEvent st = bs "event!x" -> Sample st = [VStr (bs "a"); VStr (bs "b")] -> Context st = None ->
  exists ps c', ex_hrf (fun _ => None) false 100 st [] = (Returns ps, c') /\
    ex_pieces (fun _ => None) ps [] (mkEvent 50 None (Some (Some (bs "e"))) 7 [VStr (bs "a"); VStr (bs "b")]) <> None /\
    ex_pieces (fun _ => None) ps [] (mkEvent 50 None (Some None) 7 [VStr (bs "a"); VStr (bs "b")]) = None.
Proof.
  intros [ctx ev fn fl ln sa]. cbn. intros -> -> ->. eexists. eexists. split; [vm_compute; reflexivity|]. split; [vm_compute; discriminate|reflexivity].
Qed.
Example C57_no_context_example :
  exists n, forall fuel, (n <= fuel)%nat -> forall lc st, SiteEvent st = bs "callee!f" -> Sample st = flat (ex_kvs 1 (bs "bob")) -> Context st = None ->
  exists ps c', ex_hrf lc false fuel st (cache_after ex_enc ex_time ex_format ex_trim ex_args [] fuel [] []) = (Returns ps, c') /\
    forall lc' space cx, ex_pieces lc' ps space (mkEvent 30 cx None 7 (flat (ex_kvs 2 (bs "ann"))))
      = Some (space ++ bs "f" ++ [] ++ []
              ++ (grey ([10] ++ bs "name" ++ bs ": " ++ bs "ann") ++ grey ([10] ++ bs "timer: " ++ ex_dur (7 - 2)) ++ grey ([10] ++ bs "n" ++ bs ": " ++ ex_dec 2) ++ [])
              ++ grey [] ++ [10]).
Proof.
  refine (C57_hrf_no_context_partial ex_enc ex_time ex_format ex_trim ex_args [] ex_dec ex_dur 9 [] false (bs "callee!f") (ex_kvs 1 (bs "bob"))
    (ex_kvs 2 (bs "ann")) 30 None 7 (bs "f") [] _ _ (ex_kvs_alike _ _ _ _) (ex_kvs_nodup _ _) _ eq_refl _).
  - apply consistentb_ok. vm_compute. reflexivity.
  - apply (message_callee _ _ _ _ [] (bs "callee!f") (ex_kvs 2 (bs "ann")) (bs "f")). reflexivity.
  - apply ex_kvs_lines; lia.
Qed.

Definition ex_ckvs (n : Z) (s : bytes) : list (bytes * value) := [(bs "name", VStr s); (bs "n", VAny 7 n)].
Example C58_example :
  exists n, forall fuel, (n <= fuel)%nat -> forall st, SiteEvent st = bs "callee!f" -> Sample st = flat (ex_ckvs 1 (bs "bob")) ->
  exists ps c', compactFormatterOf ex_enc ex_trim [] ex_dec fuel st (cache_after ex_enc ex_time ex_format ex_trim ex_args [] fuel [] ex_history) = (Returns ps, c') /\
    forall lc space cx, ex_pieces lc ps space (mkEvent 40 cx (Some (Some (bs "lost"))) 7 (flat (ex_ckvs 2 (bs "ann"))))
      = Some (space ++ bs "[" ++ LevelName 40 ++ bs "] [" ++ bs "2006-01-02T15:04:05Z07:00@7" ++ bs "]" ++ bs "[" ++ place ex_dec st ++ bs "] "
              ++ (bs "call " ++ bs "f") ++ (bs " error:" ++ bs "lost" ++ [])
              ++ (bs "||" ++ bs "name" ++ bs "=" ++ bs "ann" ++ bs "||" ++ bs "n" ++ bs "=" ++ bs "2" ++ []) ++ [10]).
Proof.
  refine (C58_compact_partial ex_enc ex_time ex_format ex_trim ex_args [] ex_dec ex_dur 9 ex_history (bs "callee!f") (ex_ckvs 1 (bs "bob"))
    (ex_ckvs 2 (bs "ann")) 40 (Some (Some (bs "lost"))) 7 _ _ _ _ _ _ _ eq_refl _).
  - apply consistentb_ok. vm_compute. reflexivity.
  - repeat constructor.
  - repeat constructor; cbn; intuition discriminate.
  - apply message_callee. reflexivity.
  - apply fields_value; [apply ex_key; reflexivity|apply shows_string|]. apply fields_value; [apply ex_key; reflexivity| |apply fields_nil].
    eapply shows_json; reflexivity.
Qed.

Definition ex_full_layout : template :=
  mkTemplate [(bs "[", mkPlaceholder [] (bs "level") [] None); (bs "] ", mkPlaceholder [] (bs "timestamp") [] (Some ([32], [bs " 15:04"])));
    (bs " ", mkPlaceholder [] (bs "file") [] None); (bs ":", mkPlaceholder [] (bs "line") [] None); (bs " ", mkPlaceholder [] (bs "message") [] None)] [10].
Lemma ex_full_layout_ok : template_ok ex_full_layout.
Proof. split; cbn [t_parts t_end ex_full_layout]; ex_ok. Qed.
Example C60_example :
  let st := mkSite None (bs "main") (bs "m.go") 3 (bs "hello {name}!") [] (flat (ex_kvs 1 (bs "bob"))) in
  exists n, forall fuel, (n <= fuel)%nat -> exists f c',
    printfFormatterOf ex_enc ex_trim [] 7 (bs "[{level}] {timestamp, goTime, 15:04} {file}:{line} {message}") fuel st
      (cache_after ex_enc ex_time ex_format ex_trim ex_args [] fuel [] ex_history) = (Returns f, c') /\
    forall cx err, printfFormat ex_time ex_format ex_args 7 f (bs "> ") (mkEvent 40 cx err 7 (flat (ex_kvs 2 (bs "ann"))))
      = Some (bs "> " ++ (bs "[WARN] 15:04@7 m.go:3 hello ann!" ++ [10])).
Proof.
  intro st.
  apply (C60_printf_partial ex_enc ex_time ex_format ex_trim ex_args [] 7 ex_history (bs "[{level}] {timestamp, goTime, 15:04} {file}:{line} {message}")
    ex_full_layout (bs "hello {name}!") ex_hello (ex_kvs 1 (bs "bob")) (ex_kvs 2 (bs "ann")) 40 7 (bs "hello ann!") st); try reflexivity.
  - apply consistentb_ok. vm_compute. reflexivity.
  - apply ex_kvs_alike.
  - exact ex_full_layout_ok.
  - exact ex_hello_ok.
  - discriminate.
  - change (bs "hello ann!") with (bs "hello " ++ bs "ann" ++ bs "!"). constructor; [|constructor]. eexists. split; [reflexivity|]. apply shows_string.
  - cbn [t_parts t_end ex_full_layout].
    change (bs "[WARN] 15:04@7 m.go:3 hello ann!" ++ [10])
      with (bs "[" ++ bs "WARN" ++ bs "] " ++ bs "15:04@7" ++ bs " " ++ bs "m.go" ++ bs ":" ++ bs "3" ++ bs " " ++ bs "hello ann!" ++ [10]).
    repeat (apply expands_part; [|]); [..|constructor].
    + eexists. split; [reflexivity|]. apply shows_string.
    + eexists. split; [reflexivity|]. exists 7. split; reflexivity.
    + eexists. split; [reflexivity|]. apply shows_string.
    + eexists. split; [reflexivity|]. eapply shows_json; reflexivity.
    + eexists. split; [reflexivity|]. cbn [p_time]. change (bs "hello ann!") with (escaped_all (bs "hello ann!")). apply shows_bytes.
      * apply ex_bytes; reflexivity.
      * apply (fmtWriteBytes_iff []); [apply ex_bytes|]; reflexivity.
Qed.

Definition ex_program : list op :=
  [OPlain PInfo (bs "hello {name}!") (ex_kvs 1 (bs "bob")) 5 []; OCall PInfoCall (bs "hello {name}!") (Some (bs "lost")) (ex_kvs 2 (bs "ann")) 6 [];
   OSetMin 40; OPlain PInfo (bs "hello {name}!") (ex_kvs 1 (bs "bob")) 5 []; OCall PInfoCall (bs "event!x") None [] 7 []; OPlain PWarn (bs "event!x") [] 8 []].
Example C59_example :
  Forall (op_shown ex_enc ex_time ex_format ex_trim ex_dur 9) ex_program /\ consistent [] (flat_map op_uses ex_program).
Proof.
  assert (A : forall n s, agg_ok (ex_kvs n s)).
  { intros n s v I. cbn [ex_kvs In] in I. repeat (destruct I as [I|I]; [discriminate I|]). contradiction I. }
  assert (P : forall n s now, 0 <= n -> - 2 ^ 63 <= now - n < 2 ^ 63 -> agg_ok (ex_kvs n s) /\ NoDup (map fst (ex_kvs n s)) /\
    (exists m, message ex_enc ex_time ex_format ex_trim [] (bs "hello {name}!") (ex_kvs n s) m) /\ (exists p, lines ex_enc ex_time ex_dur 9 true now (ex_kvs n s) p)).
  { intros n s now N R. split; [apply A|]. split; [apply ex_kvs_nodup|]. split; [eexists; apply ex_hello_message|]. eexists. apply ex_kvs_lines; assumption. }
  assert (X : forall now, agg_ok [] /\ NoDup (map fst (@nil (bytes * value))) /\ (exists m, message ex_enc ex_time ex_format ex_trim [] (bs "event!x") [] m) /\
    (exists p, lines ex_enc ex_time ex_dur 9 true now [] p)).
  { intro now. split; [intros v []|]. split; [constructor|]. split; [eexists; apply message_event; reflexivity|]. eexists. apply lines_nil. }
  split.
  - repeat (apply Forall_cons; [cbn [op_shown]|]); [apply P; lia| |exact I|apply P; lia| |apply X|apply Forall_nil].
    + destruct (P 2 (bs "ann") 6) as (P1 & P2 & P3 & P4); try lia. split; [exact P1|]. split; [exact P2|]. split; [exact P3|]. split; [exact P4|].
      intros _. exists ex_hello. eexists. split; [exact ex_hello_ok|]. split; [reflexivity|]. split; [discriminate|].
      constructor; [|constructor]. eexists. split; [reflexivity|]. apply shows_string.
    + destruct (X 7) as (P1 & P2 & P3 & P4). split; [exact P1|]. split; [exact P2|]. split; [exact P3|]. split; [exact P4|]. intro C. contradiction C. reflexivity.
  - apply consistentb_ok. vm_compute. reflexivity.
Qed.
(** What it writes. *)
Example C59_example_run : forall n, exists s', execute (ex_standard (100 + n)) ex_program start = Some (s', [Some (bs "hello ann!: lost"); None]) /\
  w_out (world s') = [
    bs "hello bob!" ++ grey ([10] ++ bs "name: bob") ++ grey ([10] ++ bs "timer: 4ns") ++ grey ([10] ++ bs "n: 1") ++ grey [] ++ [10];
    bs "hello ann!" ++ [10] ++ grey (bs "error: lost") ++ grey ([10] ++ bs "name: ann") ++ grey ([10] ++ bs "timer: 4ns") ++ grey ([10] ++ bs "n: 2") ++
      grey ([10] ++ bs "location:  @ :0") ++ [10];
    bs "x" ++ grey ([10] ++ bs "location:  @ :0") ++ [10]].
Proof. intro n. eexists. split; [vm_compute; reflexivity|]. vm_compute. reflexivity. Qed.

Example C48_text_example : let ps := [mkShown (bs "k") (VAny 7 5) (VStr (bs "k")) (VAny 7 6) (bs "6")] in
  flat_map (fun p => [VStr (sp_key p); sp_sample p]) ps = [VStr (bs "k"); VAny 7 5] /\
  flat_map (fun p => [sp_name p; sp_value p]) ps = [VStr (bs "k"); VAny 7 6] /\
  Forall (fun p => exists e, ex_json ((fun _ => 0) (sp_sample p)) = Some e /\ e (sp_value p) = Some (sp_text p)) ps.
Proof. cbv zeta. split; [reflexivity|]. split; [reflexivity|]. constructor; [|constructor]. eexists. split; reflexivity. Qed.
Example C48_example : exists f text,
  jsonFormatterOf ex_dec 9 (fun _ => 0) ex_json (mkSite None (bs "main") (bs "m.go") 3 (bs "e") [] [VStr (bs "k"); VAny 7 5]) = Some f /\
  jsonFormat 9 f [] (mkEvent 30 None None 4 [VStr (bs "k"); VAny 7 6]) = Some text /\
  text = bs "{" ++ quote ++ bs "event" ++ quote ++ bs ":" ++ quote ++ bs "e" ++ quote ++ bs "," ++ quote ++ bs "k" ++ quote ++ bs ":6,timestamp:4,location:" ++ quote
         ++ bs "main @ m.go:3" ++ quote ++ bs "}" ++ [10] /\
  forall j, ~ parses text j.
Proof.
  eexists. eexists. split; [reflexivity|]. split; [reflexivity|]. split; [reflexivity|]. intro j.
  eapply (C48_never_json_refuted ex_dec 9 (fun _ => 0) ex_json (mkSite None (bs "main") (bs "m.go") 3 (bs "e") [] [VStr (bs "k"); VAny 7 5]) _
    (mkEvent 30 None None 4 [VStr (bs "k"); VAny 7 6])); [apply ex_notin; reflexivity|reflexivity|reflexivity| |reflexivity|reflexivity].
  constructor; [right; vm_compute; split; discriminate|constructor].
Qed.

(** ** The levels in a record *)
(** What a compact record shows of a level: one name for the calls of a level and the level itself, UNKNOWN for every other number *)
Theorem C58_levels : forall level, LevelName level =
  match level with
  | 5 | 10 => bs "TRACE" | 15 | 20 => bs "DEBUG" | 25 | 30 => bs "INFO" | 40 => bs "WARN" | 50 => bs "ERROR" | 60 => bs "FATAL"
  | _ => bs "UNKNOWN"
  end.
Proof.
  intros level. unfold LevelName, LevelTraceCall, LevelTrace, LevelDebugCall, LevelDebug, LevelInfoCall, LevelInfo, LevelWarn, LevelError, LevelFatal.
  repeat match goal with |- context [level =? ?n] => destruct (Z.eqb_spec level n) as [->|]; [reflexivity|] end. cbn [orb].
  destruct level as [|p|p]; try reflexivity.
  do 6 (try (destruct p as [p|p|]; try reflexivity)); exfalso; congruence.
Qed.
Print Assumptions C58_levels.
Example C58_levels_example : map LevelName [5; 40; 41] = [bs "TRACE"; bs "WARN"; bs "UNKNOWN"].
Proof. reflexivity. Qed.
